(** Lemmas on the comm manager. *)
From Verif Require Import Base BaseFacts Json Comm CommSpec.

Lemma node_of_in p ts t : node_of p ts = Some t -> exists name, In (name, (p, t)) ts.
Proof.
  unfold node_of. destruct (find _ ts) as [[name [q u]]|] eqn:Hf; cbn; [|discriminate]. intros [= ->].
  apply find_some in Hf as [Hin He]. cbn in He. apply Nat.eqb_eq in He as ->. eauto.
Qed.
Lemma in_node_of p ts t name : NoDup (List.map (fun e => fst (snd e)) ts) -> In (name, (p, t)) ts -> node_of p ts = Some t.
Proof.
  unfold node_of. induction ts as [|[n [q u]] ts IH]; cbn [In find List.map fst snd]; intros Hn Hi; [easy|].
  inversion Hn as [|? ? Hnot Hn']; subst. destruct (Nat.eqb_spec q p) as [->|Hne].
  - destruct Hi as [[= _ ->]|Hi]; [reflexivity|]. destruct Hnot. apply in_map_iff. now exists (name, (p, t)).
  - destruct Hi as [[= _ He _]|Hi]; [congruence|]. auto.
Qed.
Lemma points_to_fun cs a t u : NoDup (List.map (fun e => fst (snd e)) (targets cs)) -> points_to cs a t -> points_to cs a u -> t = u.
Proof.
  intros Hn (c & n & Hc & Hi) (c' & n' & Hc' & Hi'). assert (c' = c) by congruence; subst.
  apply in_node_of in Hi; auto. apply in_node_of in Hi'; auto. congruence.
Qed.
Lemma points_to_deref cs a t : NoDup (List.map (fun e => fst (snd e)) (targets cs)) -> points_to cs a t ->
  exists c, deref a cs = Ok c /\ deref_target (c_target c) cs = Ok t.
Proof.
  intros Hn (c & n & Hc & Hi). exists c. unfold deref, deref_target. rewrite Hc, (in_node_of _ _ _ _ Hn Hi). auto.
Qed.

(** ** Registrations never dangle *)
(** The invariant: the registered objects are alive, have the identifier, and are not marked moved;
    addresses above [next_addr] are free. *)
Definition reg_ok (cs : comms) : Prop :=
  (forall id a, mfind id (registry cs) = Some a -> exists c, in_use cs a c /\ c_id c = id) /\
  (forall a, next_addr cs <= a -> heap cs a = None) /\ msorted (registry cs) = true.
Lemma reg_ok_no_dangling cs : reg_ok cs -> no_dangling cs.
Proof. intros [H _] id a Hf. destruct (H id a Hf) as (c & [Hc _] & Hi). eauto. Qed.
Lemma reg_ok_init : reg_ok no_comms.
Proof. split; [discriminate | split; reflexivity]. Qed.

Lemma register_inv p id a cs cs' : register_comm p id a cs = Ok cs' -> cs' = set_registry (mset id a (registry cs)) cs.
Proof. unfold register_comm. destruct (deref_target p cs) as [t| |]; cbn [bind]; try discriminate. destruct (t_manager t); [now intros [= <-] | discriminate]. Qed.
Lemma unregister_inv p id cs cs' : unregister_comm p id cs = Ok cs' -> cs' = set_registry (mdel id (registry cs)) cs.
Proof. unfold unregister_comm. destruct (deref_target p cs) as [t| |]; cbn [bind]; try discriminate. destruct (t_manager t); [now intros [= <-] | discriminate]. Qed.
Lemma deref_inv a cs c : deref a cs = Ok c -> heap cs a = Some c.
Proof. unfold deref. destruct (heap cs a); [now intros [= ->] | discriminate]. Qed.

(** The effect of each operation on heap and registry. *)
Definition lucky (pol : indet) : Prop := forall a, read_flag pol a Indet = Ok false.

Ltac neqb := repeat match goal with
  | |- context [Nat.eqb ?a ?b] => destruct (Nat.eqb_spec a b)
  | H : context [Nat.eqb ?a ?b] |- _ => destruct (Nat.eqb_spec a b)
  end.

Inductive effect (pol : indet) (o : cop) (cs cs' : comms) : Prop :=
| ef_new p id : o = CNew p id \/ (exists a, o = CCopy a id /\ exists c, heap cs a = Some c) ->
    (exists t f, heap cs' = (fun b => if Nat.eqb b (next_addr cs) then Some {| c_close := None; c_message := None; c_target := t; c_id := id; c_moved := f |} else heap cs b) /\ f <> Init true) ->
    registry cs' = mset id (next_addr cs) (registry cs) -> next_addr cs' = S (next_addr cs) -> effect pol o cs cs'
| ef_move a c : o = CMove a -> heap cs a = Some c ->
    heap cs' = (fun b => if Nat.eqb b a then Some {| c_close := None; c_message := None; c_target := c_target c; c_id := c_id c; c_moved := Init true |}
                         else if Nat.eqb b (next_addr cs) then Some {| c_close := c_close c; c_message := c_message c; c_target := c_target c; c_id := c_id c; c_moved := Init false |}
                         else heap cs b) ->
    registry cs' = mset (c_id c) (next_addr cs) (registry cs) -> next_addr cs' = S (next_addr cs) -> effect pol o cs cs'
| ef_assign d s cd c : o = CMoveAssign d s -> d <> s -> heap cs d = Some cd -> heap cs s = Some c ->
    heap cs' = (fun b => if Nat.eqb b s then Some {| c_close := None; c_message := None; c_target := c_target c; c_id := c_id c; c_moved := Init true |}
                         else if Nat.eqb b d then Some {| c_close := c_close c; c_message := c_message c; c_target := c_target c; c_id := c_id c; c_moved := Init false |}
                         else heap cs b) ->
    registry cs' = mset (c_id c) d (mdel (c_id cd) (registry cs)) -> next_addr cs' = next_addr cs -> effect pol o cs cs'
| ef_copy d s id cd c : o = CCopyAssign d s id -> heap cs d = Some cd -> heap cs s = Some c ->
    heap cs' = (fun b => if Nat.eqb b d then Some {| c_close := c_close cd; c_message := c_message cd; c_target := c_target c; c_id := id; c_moved := Init false |} else heap cs b) ->
    registry cs' = mset id d (mdel (c_id cd) (registry cs)) -> next_addr cs' = next_addr cs -> effect pol o cs cs'
| ef_destroy a c m : o = CDestroy a -> heap cs a = Some c -> read_flag pol a (c_moved c) = Ok m ->
    heap cs' = (fun b => if Nat.eqb b a then None else heap cs b) ->
    registry cs' = (if m then registry cs else mdel (c_id c) (registry cs)) -> next_addr cs' = next_addr cs -> effect pol o cs cs'
| ef_handler a c c' : (exists h, o = COnMessage a h \/ o = COnClose a h) -> heap cs a = Some c -> c_id c' = c_id c -> c_moved c' = c_moved c ->
    heap cs' = (fun b => if Nat.eqb b a then Some c' else heap cs b) -> registry cs' = registry cs -> next_addr cs' = next_addr cs -> effect pol o cs cs'
| ef_erase id : o = CErase id -> heap cs' = heap cs -> registry cs' = mdel id (registry cs) -> next_addr cs' = next_addr cs -> effect pol o cs cs'
| ef_target : (exists n, o = CTarget n \/ (exists cb, o = CRegTarget n cb) \/ o = CUnregTarget n) ->
    heap cs' = heap cs -> registry cs' = registry cs -> next_addr cs' = next_addr cs -> effect pol o cs cs'.

Lemma cstep_effect pol o cs cs' : not_self_move o -> cstep pol o cs = Ok cs' -> effect pol o cs cs'.
Proof.
  intros Hns. destruct o as [p id|a|a id|d s|d s id|a|a h|a h|id|name|name cb|name]; cbn [cstep not_self_move] in *.
  - unfold comm_new. destruct (register_comm _ _ _ _) as [x| |] eqn:Hr; cbn [bind]; try discriminate. intros [= <-]. apply register_inv in Hr as ->.
    eapply ef_new; [left; reflexivity| |reflexivity|reflexivity]. eexists p, Indet. split; [reflexivity | discriminate].
  - unfold comm_move. destruct (deref a cs) as [c| |] eqn:Hd; cbn [bind]; try discriminate. apply deref_inv in Hd.
    destruct (register_comm _ _ _ _) as [x| |] eqn:Hr; cbn [bind]; try discriminate. intros [= <-]. apply register_inv in Hr as ->.
    eapply ef_move; eauto.
  - unfold comm_copy. destruct (deref a cs) as [c| |] eqn:Hd; cbn [bind]; try discriminate. apply deref_inv in Hd.
    destruct (register_comm _ _ _ _) as [x| |] eqn:Hr; cbn [bind]; try discriminate. intros [= <-]. apply register_inv in Hr as ->.
    eapply (ef_new _ _ _ _ 0); [right; eauto| |reflexivity|reflexivity]. eexists (c_target c), (Init false). split; [reflexivity | discriminate].
  - unfold comm_move_assign. destruct (deref d cs) as [cd| |] eqn:Hd; cbn [bind]; try discriminate. apply deref_inv in Hd.
    destruct (deref s cs) as [c| |] eqn:Hs; cbn [bind]; try discriminate. apply deref_inv in Hs.
    destruct (unregister_comm _ _ _) as [x| |] eqn:Hu; cbn [bind]; try discriminate. apply unregister_inv in Hu as ->.
    intros Hr. apply register_inv in Hr as ->. destruct (Nat.eqb_spec d s) as [->|_]; [contradiction|].
    eapply ef_assign; eauto.
  - unfold comm_copy_assign. destruct (deref d cs) as [cd| |] eqn:Hd; cbn [bind]; try discriminate. apply deref_inv in Hd.
    destruct (deref s cs) as [c| |] eqn:Hs; cbn [bind]; try discriminate. apply deref_inv in Hs.
    destruct (unregister_comm _ _ _) as [x| |] eqn:Hu; cbn [bind]; try discriminate. apply unregister_inv in Hu as ->.
    intros Hr. apply register_inv in Hr as ->. eapply ef_copy; eauto.
  - unfold comm_destroy. destruct (deref a cs) as [c| |] eqn:Hd; cbn [bind]; try discriminate. apply deref_inv in Hd.
    destruct (read_flag pol a (c_moved c)) as [m| |] eqn:Hm; cbn [bind]; try discriminate. destruct m; cbn [bind].
    + intros [= <-]. eapply ef_destroy; eauto.
    + destruct (unregister_comm _ _ _) as [x| |] eqn:Hu; cbn [bind]; try discriminate. apply unregister_inv in Hu as ->. intros [= <-]. eapply ef_destroy; eauto.
  - unfold comm_on_message. destruct (deref a cs) as [c| |] eqn:Hd; cbn [bind]; try discriminate. apply deref_inv in Hd. intros [= <-]. eapply (ef_handler pol _ _ _ a c); [eauto|exact Hd| | |cbn; reflexivity|reflexivity|reflexivity]; reflexivity.
  - unfold comm_on_close. destruct (deref a cs) as [c| |] eqn:Hd; cbn [bind]; try discriminate. apply deref_inv in Hd. intros [= <-]. eapply (ef_handler pol _ _ _ a c); [eauto|exact Hd| | |cbn; reflexivity|reflexivity|reflexivity]; reflexivity.
  - intros [= <-]. eapply ef_erase; eauto.
  - intros [= <-]. eapply ef_target; [eauto| | |]; unfold target_node; destruct (mfind name (targets cs)) as [[n t]|]; reflexivity.
  - intros [= <-]. eapply ef_target; [eauto| | |]; unfold register_comm_target, target_node; destruct (mfind name (targets cs)) as [[n t]|]; reflexivity.
  - intros [= <-]. eapply ef_target; [eauto 10| | |]; reflexivity.
Qed.

Lemma mfind_mset_inv {V} k k' (v w : V) m : mfind k (mset k' v m) = Some w -> (k = k' /\ w = v) \/ (k <> k' /\ mfind k m = Some w).
Proof. rewrite mfind_mset. destruct (String.eqb_spec k k') as [->|H]; [intros [= <-]|]; auto. Qed.
Lemma mfind_mdel_inv {V} k k' (w : V) m : msorted m = true -> mfind k (mdel k' m) = Some w -> k <> k' /\ mfind k m = Some w.
Proof. intros Hs. rewrite mfind_mdel by exact Hs. destruct (String.eqb_spec k k') as [->|H]; [discriminate|intros Hx; split; assumption]. Qed.

Lemma reg_ok_step pol o cs cs' : lucky pol -> not_self_move o -> cstep pol o cs = Ok cs' -> reg_ok cs -> reg_ok cs'.
Proof.
  intros Hl Hns Hst (HR & HF & HS). pose proof (cstep_effect _ _ _ _ Hns Hst) as He. unfold reg_ok, in_use.
  assert (Hlt : forall a c, heap cs a = Some c -> a < next_addr cs).
  { intros a c Hc. destruct (Nat.lt_ge_cases a (next_addr cs)) as [|Hge]; auto. rewrite HF in Hc by auto. discriminate. }
  destruct He as [p id Ho (t & f & Hh & Hf) Hr Hn|a c Ho Hc Hh Hr Hn|d s cd c Ho Hne Hd Hs Hh Hr Hn|d s id cd c Ho Hd Hs Hh Hr Hn|a c m Ho Hc Hm Hh Hr Hn|a c c' Ho Hc Hi Hmv Hh Hr Hn|id Ho Hh Hr Hn|Ho Hh Hr Hn];
    rewrite Hh, Hr, Hn; (match goal with |- ?A /\ ?B /\ ?C => cut (C /\ A /\ B); [tauto|]; split; [try destruct m; repeat first [assumption|apply mset_sorted|apply mdel_sorted]|] end).
  - split.
    + intros i a Hf'. apply mfind_mset_inv in Hf' as [[-> ->]|[Hne Hf']].
      * rewrite Nat.eqb_refl. eexists. split; [split; [reflexivity|exact Hf]|]. reflexivity.
      * destruct (HR _ _ Hf') as (c & [Hc1 Hc2] & Hc3). pose proof (Hlt _ _ Hc1). neqb; [lia|]. eauto.
    + intros a Ha. neqb; [lia|]. apply HF; lia.
  - pose proof (Hlt _ _ Hc). split.
    + intros i b Hf'. apply mfind_mset_inv in Hf' as [[-> ->]|[Hne Hf']].
      * neqb; [lia| |lia]. eexists. split; [split; [reflexivity | discriminate]|]. reflexivity.
      * destruct (HR _ _ Hf') as (cb & [Hc1 Hc2] & Hc3). pose proof (Hlt _ _ Hc1). neqb; [|lia|eauto]. subst b. rewrite Hc in Hc1. injection Hc1 as <-. congruence.
    + intros b Hb. neqb; [lia|lia|]. apply HF; lia.
  - pose proof (Hlt _ _ Hd). pose proof (Hlt _ _ Hs). split.
    + intros i b Hf'. apply mfind_mset_inv in Hf' as [[-> ->]|[Hni Hf']].
      * neqb; [contradiction| |contradiction]. eexists. split; [split; [reflexivity | discriminate]|]. reflexivity.
      * apply (mfind_mdel_inv _ _ _ _ HS) in Hf' as [Hnd Hf']. destruct (HR _ _ Hf') as (cb & [Hc1 Hc2] & Hc3). neqb.
        -- subst b. rewrite Hs in Hc1. injection Hc1 as <-. congruence.
        -- subst b. rewrite Hd in Hc1. injection Hc1 as <-. congruence.
        -- eauto.
    + intros b Hb. neqb; [lia|lia|]. auto.
  - pose proof (Hlt _ _ Hd). split.
    + intros i b Hf'. apply mfind_mset_inv in Hf' as [[-> ->]|[Hni Hf']].
      * rewrite Nat.eqb_refl. eexists. split; [split; [reflexivity | discriminate]|]. reflexivity.
      * apply (mfind_mdel_inv _ _ _ _ HS) in Hf' as [Hnd Hf']. destruct (HR _ _ Hf') as (cb & [Hc1 Hc2] & Hc3). neqb; [|eauto].
        subst b. rewrite Hd in Hc1. injection Hc1 as <-. congruence.
    + intros b Hb. neqb; [lia|]. auto.
  - split; [|intros b Hb; neqb; auto]. intros i b Hf'.
    assert (mfind i (registry cs) = Some b /\ b <> a) as [Hfo Hba].
    { assert (Hmi : mfind i (registry cs) = Some b) by (destruct m; [auto|apply (mfind_mdel_inv _ _ _ _ HS) in Hf'; tauto]). split; auto. intros ->.
      destruct (HR _ _ Hmi) as (cb & [Hc1 Hc2] & Hc3). rewrite Hc in Hc1. injection Hc1 as <-.
      destruct (c_moved c) as [[]|] eqn:Emv; [contradiction| |]; [cbn in Hm; injection Hm as <-|rewrite Hl in Hm; injection Hm as <-];
        apply (mfind_mdel_inv _ _ _ _ HS) in Hf' as [Hx _]; congruence. }
    destruct (HR _ _ Hfo) as (cb & [Hc1 Hc2] & Hc3). neqb; [contradiction|]. eauto.
  - pose proof (Hlt _ _ Hc). split; [|intros b Hb; neqb; [lia|auto]]. intros i b Hf'. destruct (HR _ _ Hf') as (cb & [Hc1 Hc2] & Hc3). neqb; [|eauto].
    subst b. rewrite Hc in Hc1. injection Hc1 as <-. exists c'. split; [split; congruence|congruence].
  - split; [|exact HF]. intros i b Hf'. apply (mfind_mdel_inv _ _ _ _ HS) in Hf' as [_ Hf']. apply HR in Hf' as (cb & Hc1 & Hc3). eauto.
  - split; [|exact HF]. intros i b Hf'. apply HR in Hf' as (cb & Hc1 & Hc3). eauto.
Qed.
Lemma reg_ok_steps pol (P : comms -> cop -> Prop) ops cs cs' : lucky pol -> (forall cs o, P cs o -> not_self_move o) -> csteps pol P ops cs cs' -> reg_ok cs -> reg_ok cs'.
Proof. intros Hl HP. induction 1; auto. intros Hr. apply IHcsteps. eapply reg_ok_step; eauto. Qed.

(** ** Live comms are reachable *)
(** [closed]: the identifiers erased so far. *)
Definition reach_ok (closed : string -> Prop) (cs : comms) : Prop :=
  reg_ok cs /\
  (forall a c, in_use cs a c -> mfind (c_id c) (registry cs) = Some a \/ (closed (c_id c) /\ mfind (c_id c) (registry cs) = None)) /\
  (forall a b c d, in_use cs a c -> in_use cs b d -> c_id c = c_id d -> a = b).
Lemma disciplined_not_self cs o : disciplined cs o -> not_self_move o.
Proof. destruct o; cbn; auto. now intros []. Qed.
Lemma reach_ok_step pol o closed cs cs' : lucky pol -> disciplined cs o -> cstep pol o cs = Ok cs' -> reach_ok closed cs ->
  reach_ok (fun i => closed i \/ o = CErase i) cs'.
Proof.
  intros Hl Hd Hst (HR & HV & HI). pose proof (disciplined_not_self _ _ Hd) as Hns. pose proof (reg_ok_step _ _ _ _ Hl Hns Hst HR) as HR'.
  split; auto. pose proof (cstep_effect _ _ _ _ Hns Hst) as He. destruct HR as (HR & HF & HS).
  assert (Hlt : forall a c, heap cs a = Some c -> a < next_addr cs).
  { intros a c Hc. destruct (Nat.lt_ge_cases a (next_addr cs)) as [|Hge]; auto. rewrite HF in Hc by auto. discriminate. }
  unfold in_use in *.
  destruct He as [p id Ho (t & f & Hh & Hf) Hr Hn|a c Ho Hc Hh Hr Hn|d s cd c Ho Hne Hdd Hs Hh Hr Hn|d s id cd c Ho Hdd Hs Hh Hr Hn|a c m Ho Hc Hm Hh Hr Hn|a c c' Ho Hc Hi Hmv Hh Hr Hn|id Ho Hh Hr Hn|Ho Hh Hr Hn];
    rewrite Hh, Hr in *.
  - assert (Hfr : fresh_id cs id) by (destruct Ho as [->|(x & -> & _)]; [exact Hd | exact (proj1 Hd)]). split.
    + intros a c [Hc Hm]. neqb.
      * subst a. injection Hc as <-. left. cbn. apply mfind_mset_same.
      * pose proof (Hfr _ _ Hc). rewrite mfind_mset_other by auto. destruct (HV a c) as [H'|[H' H'']]; auto.
    + intros a b c1 c2 [H1 M1] [H2 M2] Heq. neqb; try congruence.
      * injection H2 as <-. cbn in Heq. pose proof (Hfr _ _ H1). congruence.
      * injection H1 as <-. cbn in Heq. pose proof (Hfr _ _ H2). congruence.
      * eapply HI; eauto.
  - subst o. destruct Hd as (c0 & Hc0 & Hm0). rewrite Hc in Hc0. injection Hc0 as <-. pose proof (Hlt _ _ Hc). split.
    + intros b cb [Hb Mb]. neqb.
      * injection Hb as <-. now destruct Mb.
      * injection Hb as <-. left. cbn. rewrite mfind_mset_same. congruence.
      * assert (c_id cb <> c_id c) by (intros He; apply n; eapply HI; eauto). rewrite mfind_mset_other by auto.
        destruct (HV b cb) as [H'|[H' H'']]; auto.
    + intros b1 b2 c1 c2 [H1 M1] [H2 M2] Heq. neqb; try congruence; try (injection H1 as <-; now destruct M1); try (injection H2 as <-; now destruct M2).
      * injection H2 as <-. cbn in Heq. assert (b1 = a) by (eapply (HI b1 a c1 c); eauto). congruence.
      * injection H1 as <-. cbn in Heq. assert (b2 = a) by (eapply (HI b2 a c2 c); eauto). congruence.
      * eapply HI; eauto.
  - subst o. destruct Hd as (_ & (cd0 & Hd0 & Md0) & (c0 & Hc0 & Mc0)). rewrite Hdd in Hd0. injection Hd0 as <-. rewrite Hs in Hc0. injection Hc0 as <-. split.
    + intros b cb [Hb Mb]. neqb.
      * injection Hb as <-. now destruct Mb.
      * injection Hb as <-. left. cbn. rewrite mfind_mset_same. congruence.
      * assert (c_id cb <> c_id c) by (intros He; apply n; eapply HI; eauto). assert (c_id cb <> c_id cd) by (intros He; apply n0; eapply HI; eauto).
        rewrite mfind_mset_other, (mfind_mdel _ _ _ HS) by auto. destruct (String.eqb_spec (c_id cb) (c_id cd)); [contradiction|].
        destruct (HV b cb) as [H'|[H' H'']]; auto.
    + intros b1 b2 c1 c2 [H1 M1] [H2 M2] Heq. neqb; try congruence; try (injection H1 as <-; now destruct M1); try (injection H2 as <-; now destruct M2).
      * injection H2 as <-. cbn in Heq. assert (b1 = s) by (eapply (HI b1 s c1 c); eauto). congruence.
      * injection H1 as <-. cbn in Heq. assert (b2 = s) by (eapply (HI b2 s c2 c); eauto). congruence.
      * eapply HI; eauto.
  - subst o. destruct Hd as (Hfr & (cd0 & Hd0 & Md0) & _). rewrite Hdd in Hd0. injection Hd0 as <-. split.
    + intros b cb [Hb Mb]. neqb.
      * injection Hb as <-. left. cbn. rewrite mfind_mset_same. congruence.
      * pose proof (Hfr _ _ Hb). assert (c_id cb <> c_id cd) by (intros He; apply n; eapply HI; eauto).
        rewrite mfind_mset_other, (mfind_mdel _ _ _ HS) by auto. destruct (String.eqb_spec (c_id cb) (c_id cd)); [contradiction|].
        destruct (HV b cb) as [H'|[H' H'']]; auto.
    + intros b1 b2 c1 c2 [H1 M1] [H2 M2] Heq. neqb; try congruence.
      * injection H2 as <-. cbn in Heq. pose proof (Hfr _ _ H1). congruence.
      * injection H1 as <-. cbn in Heq. pose proof (Hfr _ _ H2). congruence.
      * eapply HI; eauto.
  - split.
    + intros b cb [Hb Mb]. neqb; [discriminate|]. destruct m; [destruct (HV b cb) as [H'|[H' H'']]; auto|].
      assert (Mc : c_moved c <> Init true).
      { intros Em. rewrite Em in Hm. discriminate. }
      assert (c_id cb <> c_id c) by (intros He; apply n; eapply HI; eauto). rewrite (mfind_mdel _ _ _ HS). destruct (String.eqb_spec (c_id cb) (c_id c)); [contradiction|].
      destruct (HV b cb) as [H'|[H' H'']]; auto.
    + intros b1 b2 c1 c2 [H1 M1] [H2 M2] Heq. neqb; try discriminate. eapply HI; eauto.
  - split.
    + intros b cb [Hb Mb]. neqb.
      * subst b. injection Hb as <-. rewrite Hi. rewrite Hmv in Mb. destruct (HV a c) as [H'|[H' H'']]; auto.
      * destruct (HV b cb) as [H'|[H' H'']]; auto.
    + assert (Hback : forall b cb, (if Nat.eqb b a then Some c' else heap cs b) = Some cb -> c_moved cb <> Init true -> exists cb', heap cs b = Some cb' /\ c_moved cb' <> Init true /\ c_id cb' = c_id cb).
      { intros b cb Hb Mb. neqb; [subst b; injection Hb as <-; exists c; repeat split; congruence | eauto]. }
      intros b1 b2 c1 c2 [H1 M1] [H2 M2] Heq. destruct (Hback _ _ H1 M1) as (x1 & X1 & X2 & X3). destruct (Hback _ _ H2 M2) as (y1 & Y1 & Y2 & Y3).
      eapply HI; eauto. congruence.
  - subst o. split; [|exact HI]. intros b cb [Hb Mb]. rewrite (mfind_mdel _ _ _ HS). destruct (String.eqb_spec (c_id cb) id) as [->|Hni]; [auto|].
    destruct (HV b cb) as [H'|[H' H'']]; auto.
  - split; [|exact HI]. intros b cb [Hb Mb]. destruct (HV b cb) as [H'|[H' H'']]; auto.
Qed.
Lemma reach_ok_weaken (P Q : string -> Prop) cs : (forall i, P i -> Q i) -> reach_ok P cs -> reach_ok Q cs.
Proof. intros H (A & B & C). split; auto. split; auto. intros a c Hu. destruct (B a c Hu) as [?|[? ?]]; auto. Qed.
Lemma reach_ok_steps pol ops : lucky pol -> forall closed cs cs', csteps pol disciplined ops cs cs' -> reach_ok closed cs ->
  reach_ok (fun i => closed i \/ erased ops i) cs'.
Proof.
  intros Hl. induction ops as [|o ops IH]; intros closed cs cs' Hs Hr; inversion Hs; subst.
  - eapply reach_ok_weaken; [|exact Hr]. auto.
  - eapply reach_ok_weaken; [|eapply IH; [eassumption|]; eapply reach_ok_step; eauto]. unfold erased. cbn. intuition.
Qed.
Lemma reach_ok_init : reach_ok (fun _ => False) no_comms.
Proof. split; [exact reg_ok_init|]. split; [intros a c [[=] _] | intros a b c d [[=] _]]. Qed.

(** ** Targets stay alive unless they are unregistered *)
Definition has_node (cs : comms) (p : nat) : Prop := exists n t, mfind n (targets cs) = Some (p, t).
Definition tgt_ok (cs : comms) : Prop :=
  msorted (targets cs) = true /\
  (forall n1 n2 p t1 t2, mfind n1 (targets cs) = Some (p, t1) -> mfind n2 (targets cs) = Some (p, t2) -> n1 = n2) /\
  (forall n p t, mfind n (targets cs) = Some (p, t) -> p < next_node cs) /\
  (forall a c, heap cs a = Some c -> has_node cs (c_target c)).
Definition keeps_targets (o : cop) : Prop := match o with CUnregTarget _ => False | CMoveAssign d s => d <> s | _ => True end.
Lemma register_target p id a cs cs' : msorted (targets cs) = true -> register_comm p id a cs = Ok cs' -> has_node cs p.
Proof.
  intros Hs. unfold register_comm, deref_target. destruct (node_of p (targets cs)) as [t|] eqn:Hn; cbn [bind]; [|discriminate]. intros _.
  apply node_of_in in Hn as [n Hn]. exists n, t. now apply in_mfind.
Qed.
Lemma tgt_ok_heap cs cs' : targets cs' = targets cs -> next_node cs' = next_node cs -> tgt_ok cs ->
  (forall a c, heap cs' a = Some c -> has_node cs (c_target c)) -> tgt_ok cs'.
Proof. intros Ht Hn (A & B & C & D) H. unfold tgt_ok, has_node in *. rewrite Ht, Hn. auto. Qed.
Lemma tgt_ok_node name cs t : tgt_ok cs -> let (cs1, n) := target_node name cs in
  tgt_ok cs1 /\ tgt_ok (set_targets (mset name (n, t) (targets cs1)) (next_node cs1) cs1).
Proof.
  intros (A & B & C & D).
  assert (Hex : forall cs1 n u, msorted (targets cs1) = true -> heap cs1 = heap cs ->
    (forall m p v, mfind m (targets cs1) = Some (p, v) -> (m = name /\ p = n) \/ (m <> name /\ mfind m (targets cs) = Some (p, v))) ->
    (forall m p v, mfind m (targets cs) = Some (p, v) -> m <> name -> mfind m (targets cs1) = Some (p, v)) ->
    (exists v, mfind name (targets cs1) = Some (n, v)) -> (forall v p, mfind name (targets cs) = Some (p, v) -> p = n) ->
    (forall m p v, m <> name -> mfind m (targets cs) = Some (p, v) -> p <> n /\ p < next_node cs1) -> n < next_node cs1 ->
    tgt_ok cs1 /\ tgt_ok (set_targets (mset name (n, u) (targets cs1)) (next_node cs1) cs1)).
  { intros cs1 n u S1 H1 Hinv Hfwd [v0 Hv0] Hold Hne Hlt.
    assert (Hgen : forall cs2, msorted (targets cs2) = true -> heap cs2 = heap cs -> next_node cs2 = next_node cs1 ->
      (forall m p v, mfind m (targets cs2) = Some (p, v) -> (m = name /\ p = n) \/ (m <> name /\ mfind m (targets cs) = Some (p, v))) ->
      (forall m p v, mfind m (targets cs) = Some (p, v) -> m <> name -> mfind m (targets cs2) = Some (p, v)) ->
      (exists v, mfind name (targets cs2) = Some (n, v)) -> tgt_ok cs2).
    { intros cs2 S2 H2 N2 Hinv2 Hfwd2 [v2 Hv2]. split; auto. split; [|split].
      - intros n1 n2 p t1 t2 F1 F2. destruct (Hinv2 _ _ _ F1) as [[-> ->]|[X1 Y1]], (Hinv2 _ _ _ F2) as [[-> E2]|[X2 Y2]]; auto.
        + destruct (Hne _ _ _ X2 Y2). congruence.
        + destruct (Hne _ _ _ X1 Y1). congruence.
        + eapply B; eauto.
      - intros m p v F. rewrite N2. destruct (Hinv2 _ _ _ F) as [[-> ->]|[X1 Y1]]; auto. now destruct (Hne _ _ _ X1 Y1).
      - intros a c Hc. rewrite H2 in Hc. destruct (D a c Hc) as (m & v & F). destruct (String.eqb_spec m name) as [->|Hn].
        + rewrite (Hold _ _ F). eexists _, _; eauto.
        + eexists _, _; eauto. }
    split; [apply Hgen; eauto|]. apply Hgen; cbn [targets heap next_node set_targets]; auto.
    - now apply mset_sorted.
    - intros m p v F. apply mfind_mset_inv in F as [[-> [= -> ->]]|[X F]]; [auto|]. destruct (Hinv _ _ _ F) as [[-> ->]|]; auto.
    - intros m p v F X. rewrite mfind_mset_other; auto.
    - exists u. apply mfind_mset_same. }
  unfold target_node. destruct (mfind name (targets cs)) as [[n v]|] eqn:Hf.
  - apply Hex; auto.
    + intros m p w F. destruct (String.eqb_spec m name) as [->|X]; [left; split; congruence | auto].
    + eauto.
    + intros v' p F. congruence.
    + intros m p w X F. split; [|eapply C; eauto]. intros ->. apply X. eapply B; eauto.
    + eapply C; eauto.
  - apply Hex; cbn [targets heap next_node set_targets]; auto.
    + now apply mset_sorted.
    + intros m p w F. apply mfind_mset_inv in F as [[-> [= -> ->]]|[X F]]; auto.
    + intros m p w F X. rewrite mfind_mset_other; auto.
    + eexists. apply mfind_mset_same.
    + intros v p F. congruence.
    + intros m p w X F. apply C in F. lia.
Qed.
Lemma tgt_ok_step pol o cs cs' : keeps_targets o -> cstep pol o cs = Ok cs' -> tgt_ok cs -> tgt_ok cs'.
Proof.
  intros Hk Hst HT. pose proof HT as (HS & HI & HL & HN).
  destruct o as [p id|a|a id|d s|d s id|a|a h|a h|id|name|name cb|name]; cbn [cstep keeps_targets] in *.
  - revert Hst. unfold comm_new. destruct (register_comm _ _ _ _) as [x| |] eqn:Hr; cbn [bind]; try discriminate. intros [= <-].
    pose proof (register_target _ _ _ (alloc {| c_close := None; c_message := None; c_target := p; c_id := id; c_moved := Indet |} cs) _ HS Hr) as Hp. apply register_inv in Hr as ->.
    apply (tgt_ok_heap cs); try reflexivity; auto. cbn. intros b c. neqb; [intros [= <-]; exact Hp | apply HN].
  - revert Hst. unfold comm_move. destruct (deref a cs) as [c| |] eqn:Hd; cbn [bind]; try discriminate. apply deref_inv in Hd.
    destruct (register_comm _ _ _ _) as [x| |] eqn:Hr; cbn [bind]; try discriminate. intros [= <-]. apply register_inv in Hr as ->.
    apply (tgt_ok_heap cs); try reflexivity; auto. cbn [heap set_registry set_heap alloc]. intros b cb. destruct (Nat.eqb b a); [intros [= <-]; cbn [c_target]; eapply HN; eauto|]. destruct (Nat.eqb b _); [intros [= <-]; cbn; eapply HN; eauto | apply HN].
  - revert Hst. unfold comm_copy. destruct (deref a cs) as [c| |] eqn:Hd; cbn [bind]; try discriminate. apply deref_inv in Hd.
    destruct (register_comm _ _ _ _) as [x| |] eqn:Hr; cbn [bind]; try discriminate. intros [= <-]. apply register_inv in Hr as ->.
    apply (tgt_ok_heap cs); try reflexivity; auto. cbn. intros b cb. neqb; [intros [= <-]; cbn; eapply HN; eauto | apply HN].
  - revert Hst. unfold comm_move_assign. destruct (deref d cs) as [cd| |] eqn:Hd; cbn [bind]; try discriminate. apply deref_inv in Hd.
    destruct (deref s cs) as [c| |] eqn:Hs; cbn [bind]; try discriminate. apply deref_inv in Hs.
    destruct (unregister_comm _ _ _) as [x| |] eqn:Hu; cbn [bind]; try discriminate. apply unregister_inv in Hu as ->.
    intros Hr. apply register_inv in Hr as ->.
    apply (tgt_ok_heap cs); try reflexivity; auto. cbn [heap set_registry set_heap]. intros b cb. destruct (Nat.eqb b s); [intros [= <-]; exact (HN _ _ Hs)|].
    destruct (Nat.eqb b d); [intros [= <-]; exact (HN _ _ Hs) | apply HN].
  - revert Hst. unfold comm_copy_assign. destruct (deref d cs) as [cd| |] eqn:Hd; cbn [bind]; try discriminate. apply deref_inv in Hd.
    destruct (deref s cs) as [c| |] eqn:Hs; cbn [bind]; try discriminate. apply deref_inv in Hs.
    destruct (unregister_comm _ _ _) as [x| |] eqn:Hu; cbn [bind]; try discriminate. apply unregister_inv in Hu as ->.
    intros Hr. apply register_inv in Hr as ->.
    apply (tgt_ok_heap cs); try reflexivity; auto. cbn [heap set_registry set_heap]. intros b cb. destruct (Nat.eqb b d); [intros [= <-]; cbn; eapply HN; eauto | apply HN].
  - revert Hst. unfold comm_destroy. destruct (deref a cs) as [c| |] eqn:Hd; cbn [bind]; try discriminate.
    destruct (read_flag pol a (c_moved c)) as [[]| |] eqn:Hm; cbn [bind]; try discriminate.
    + intros [= <-]. apply (tgt_ok_heap cs); try reflexivity; auto. cbn. intros b cb. neqb; [discriminate | apply HN].
    + destruct (unregister_comm _ _ _) as [x| |] eqn:Hu; cbn [bind]; try discriminate. apply unregister_inv in Hu as ->. intros [= <-].
      apply (tgt_ok_heap cs); try reflexivity; auto. cbn. intros b cb. neqb; [discriminate | apply HN].
  - revert Hst. unfold comm_on_message. destruct (deref a cs) as [c| |] eqn:Hd; cbn [bind]; try discriminate. apply deref_inv in Hd. intros [= <-].
    apply (tgt_ok_heap cs); try reflexivity; auto. cbn. intros b cb. neqb; [intros [= <-]; cbn; eapply HN; eauto | apply HN].
  - revert Hst. unfold comm_on_close. destruct (deref a cs) as [c| |] eqn:Hd; cbn [bind]; try discriminate. apply deref_inv in Hd. intros [= <-].
    apply (tgt_ok_heap cs); try reflexivity; auto. cbn. intros b cb. neqb; [intros [= <-]; cbn; eapply HN; eauto | apply HN].
  - injection Hst as <-. apply (tgt_ok_heap cs); try reflexivity; auto.
  - injection Hst as <-. pose proof (tgt_ok_node name cs {| t_name := ""; t_callback := None; t_manager := false |} HT) as H.
    destruct (target_node name cs) as [cs1 n]. apply H.
  - injection Hst as <-. unfold register_comm_target. pose proof (tgt_ok_node name cs {| t_name := name; t_callback := cb; t_manager := true |} HT) as H.
    destruct (target_node name cs) as [cs1 n]. apply H.
  - contradiction.
Qed.
Lemma tgt_ok_steps pol (P : comms -> cop -> Prop) ops cs cs' : (forall cs o, P cs o -> keeps_targets o) -> csteps pol P ops cs cs' -> tgt_ok cs -> tgt_ok cs'.
Proof. intros HP. induction 1; auto. intros Hr. apply IHcsteps. eapply tgt_ok_step; eauto. Qed.
Lemma tgt_ok_init : tgt_ok no_comms.
Proof. repeat split; discriminate. Qed.

Lemma nodes_nodup ts : msorted ts = true ->
  (forall n1 n2 (p : nat) (t1 t2 : target), mfind n1 ts = Some (p, t1) -> mfind n2 ts = Some (p, t2) -> n1 = n2) ->
  NoDup (List.map (fun e => fst (snd e)) ts).
Proof.
  induction ts as [|[n [p t]] ts IH]; intros Hs Hi; cbn [List.map fst snd]; constructor.
  - intros Hin. apply in_map_iff in Hin as ([n' [p' t']] & He & Hin). cbn in He. subst p'.
    assert (Hn' : mfind n' ((n, (p, t)) :: ts) = Some (p, t')) by (apply in_mfind; auto; now right).
    assert (Hn : mfind n ((n, (p, t)) :: ts) = Some (p, t)) by (cbn; now rewrite String.eqb_refl).
    pose proof (Hi _ _ _ _ _ Hn Hn'). subst n'. apply msorted_cons in Hs as [Hab Hs]. apply in_mfind in Hin; auto.
    rewrite (mabove_find _ _ Hab) in Hin. discriminate.
  - apply msorted_cons in Hs as [Hab Hs']. apply IH; auto. intros n1 n2 q t1 t2 F1 F2.
    assert (Hx : forall m v, mfind m ts = Some v -> mfind m ((n, (p, t)) :: ts) = Some v).
    { intros m v F. cbn. destruct (String.eqb_spec m n) as [->|]; auto. rewrite (mabove_find _ _ Hab) in F. discriminate. }
    eapply Hi; eauto.
Qed.
Lemma ok_listable cs : reg_ok cs -> tgt_ok cs -> listable cs.
Proof.
  intros (HR & _ & HS) (TS & TI & _ & TN). constructor; auto.
  - now apply nodes_nodup.
  - intros id a Hin. apply in_mfind in Hin; auto. destruct (HR _ _ Hin) as (c & [Hc _] & _). destruct (TN _ _ Hc) as (n & t & Hf).
    exists t, c, n. split; auto. now apply mfind_in.
Qed.

(** The registry stays sorted, whatever is done. *)
Lemma sorted_step pol o cs cs' : cstep pol o cs = Ok cs' -> msorted (registry cs) = true -> msorted (registry cs') = true.
Proof.
  intros H Hs. destruct o as [p id|a|a id|d s|d s id|a|a h|a h|id|name|name cb|name]; cbn [cstep] in H; revert H.
  - unfold comm_new. destruct (register_comm _ _ _ _) as [x| |] eqn:Hr; cbn [bind]; try discriminate. intros [= <-]. apply register_inv in Hr as ->. now apply mset_sorted.
  - unfold comm_move. destruct (deref a cs) as [c| |]; cbn [bind]; try discriminate.
    destruct (register_comm _ _ _ _) as [x| |] eqn:Hr; cbn [bind]; try discriminate. intros [= <-]. apply register_inv in Hr as ->. now apply mset_sorted.
  - unfold comm_copy. destruct (deref a cs) as [c| |]; cbn [bind]; try discriminate.
    destruct (register_comm _ _ _ _) as [x| |] eqn:Hr; cbn [bind]; try discriminate. intros [= <-]. apply register_inv in Hr as ->. now apply mset_sorted.
  - unfold comm_move_assign. destruct (deref d cs) as [cd| |]; cbn [bind]; try discriminate. destruct (deref s cs) as [c| |]; cbn [bind]; try discriminate.
    destruct (unregister_comm _ _ _) as [x| |] eqn:Hu; cbn [bind]; try discriminate. apply unregister_inv in Hu as ->. intros Hr. apply register_inv in Hr as ->. now apply mset_sorted, mdel_sorted.
  - unfold comm_copy_assign. destruct (deref d cs) as [cd| |]; cbn [bind]; try discriminate. destruct (deref s cs) as [c| |]; cbn [bind]; try discriminate.
    destruct (unregister_comm _ _ _) as [x| |] eqn:Hu; cbn [bind]; try discriminate. apply unregister_inv in Hu as ->. intros Hr. apply register_inv in Hr as ->. now apply mset_sorted, mdel_sorted.
  - unfold comm_destroy. destruct (deref a cs) as [c| |]; cbn [bind]; try discriminate. destruct (read_flag pol a (c_moved c)) as [[]| |]; cbn [bind]; try discriminate.
    + now intros [= <-].
    + destruct (unregister_comm _ _ _) as [x| |] eqn:Hu; cbn [bind]; try discriminate. apply unregister_inv in Hu as ->. intros [= <-]. now apply mdel_sorted.
  - unfold comm_on_message. destruct (deref a cs) as [c| |]; cbn [bind]; try discriminate. now intros [= <-].
  - unfold comm_on_close. destruct (deref a cs) as [c| |]; cbn [bind]; try discriminate. now intros [= <-].
  - intros [= <-]. now apply mdel_sorted.
  - intros [= <-]. unfold target_node. destruct (mfind name (targets cs)) as [[n t]|]; auto.
  - intros [= <-]. unfold register_comm_target, target_node. destruct (mfind name (targets cs)) as [[n t]|]; auto.
  - now intros [= <-].
Qed.
Lemma sorted_steps pol (P : comms -> cop -> Prop) ops cs cs' : csteps pol P ops cs cs' -> msorted (registry cs) = true -> msorted (registry cs') = true.
Proof. induction 1; auto. intros Hs. apply IHcsteps. eapply sorted_step; eauto. Qed.
