(** The start of the default server: proofs. *)
From Verif Require Import Base BaseFacts Json Message Comm Tree Kernel Server ServerSpec ServerProofs SplitStop ServerLemmas Join JoinSpec.

(** A forwarding thread that is asked to stop answers. *)
Lemma f_answers g w : f_ok g -> f_ctl g = SAsked w -> f_pc g <> FDone -> exists g', fsteps g g' /\ f_ctl g' = SAnswered w /\ f_pc g' = FDone.
Proof.
  destruct g as [q o c p]. cbn. intros Ok -> D.
  assert (C : forall q o, exists g', fsteps {| f_in := q; f_out := o; f_ctl := SAsked w; f_pc := FCtl |} g' /\ f_ctl g' = SAnswered w /\ f_pc g' = FDone).
  { intros. eexists. split; [eapply fs_cons; [reflexivity|constructor]|]. auto. }
  assert (P : forall q o, exists g', fsteps {| f_in := q; f_out := o; f_ctl := SAsked w; f_pc := FPoll |} g' /\ f_ctl g' = SAnswered w /\ f_pc g' = FDone).
  { intros [|x q1] o1.
    - destruct (C [] o1) as (g' & S & A). exists g'. split; auto. eapply fs_cons; [reflexivity|exact S].
    - destruct (C q1 (o1 ++ [x])%list) as (g' & S & A). exists g'. split; auto. do 3 (eapply fs_cons; [reflexivity|]). exact S. }
  destruct p as [|b|x b| |].
  - apply P.
  - destruct q as [|x q]; [now destruct (Ok b)|]. destruct b.
    + destruct (C q (o ++ [x])%list) as (g' & S & A). exists g'. split; auto. do 2 (eapply fs_cons; [reflexivity|]). exact S.
    + destruct (P q (o ++ [x])%list) as (g' & S & A). exists g'. split; auto. do 2 (eapply fs_cons; [reflexivity|]). exact S.
  - destruct b.
    + destruct (C q (o ++ [x])%list) as (g' & S & A). exists g'. split; auto. eapply fs_cons; [reflexivity|]. exact S.
    + destruct (P q (o ++ [x])%list) as (g' & S & A). exists g'. split; auto. eapply fs_cons; [reflexivity|]. exact S.
  - apply C.
  - now destruct D.
Qed.
(** [f]: with lost publications; [g]: without. *)
Definition lag (f g : fwd) : Prop := f_ctl f = f_ctl g /\ (f_pc f = FDone <-> f_pc g = FDone) /\ f_ok g.
Lemma fsteps_ok f g : fsteps f g -> f_ok f -> f_ok g.
Proof. induction 1; auto. intros O. apply IHfsteps. eapply f_ok_next; eauto. Qed.
Lemma lag_push w f g : lag f g -> lag (f_push w f) (f_push w g).
Proof. intros (A & B & C). split; [exact A|]. split; [exact B|now apply f_ok_push]. Qed.
Lemma lag_drop w f g : lag f g -> lag f (f_push w g).
Proof. intros (A & B & C). split; [exact A|]. split; [exact B|now apply f_ok_push]. Qed.
Lemma lag_set s f g : lag f g -> lag (f_set s f) (f_set s g).
Proof. intros (A & B & C). split; [reflexivity|]. split; [exact B|now apply f_ok_set]. Qed.
Lemma lag_next f g f' : lag f g -> fnext f = Some f' -> exists g', fsteps g g' /\ lag f' g'.
Proof.
  intros (A & B & C) N. assert (X : (f_ctl f' = f_ctl f /\ f_pc f <> FDone /\ f_pc f' <> FDone) \/ exists w, f_ctl f = SAsked w /\ f_pc f <> FDone /\ f_ctl f' = SAnswered w /\ f_pc f' = FDone).
  { unfold fnext in N. destruct (f_pc f) as [|b|x b| |].
    - destruct (f_in f); [destruct (asked (f_ctl f)); [|discriminate]|]; injection N as <-; left; cbn; repeat split; discriminate.
    - destruct (f_in f); [discriminate|]. injection N as <-. left; cbn; repeat split; discriminate.
    - injection N as <-. left; cbn; repeat split; [discriminate|destruct b; discriminate].
    - destruct (f_ctl f) as [|w|]; try discriminate. injection N as <-. right. exists w. cbn. repeat split; discriminate.
    - discriminate. }
  destruct X as [(X1 & X2 & X3)|(w & X1 & X2 & X3 & X4)].
  - exists g. split; [constructor|]. split; [congruence|]. split; [tauto|auto].
  - destruct (f_answers g w) as (g' & S & G1 & G2); auto; [congruence|tauto|]. exists g'. split; auto. split; [congruence|]. split; [tauto|]. eapply fsteps_ok; eauto.
Qed.

Section Sim.
  Context {U : Type}.
  Variable listener : channel -> frames -> kprog U unit.
  Variable start : frames.
  Implicit Types (m : mem U).
  Notation jrun := (jrun listener start). Notation jstep := (jstep listener start).

  (** ** What the publisher thread is given *)
  Lemma given_app a b : given (a ++ b) = (given a ++ given b)%list.
  Proof. apply flat_map_app. Qed.
  Lemma main_pub (s : dsys U) l s' : main_step listener s l s' -> f_all (m_pub (d_mem s')) = (f_all (m_pub (d_mem s)) ++ given [JMain l])%list.
  Proof.
    intros H. destruct H; cbn [d_mem]; cbn; rewrite ?app_nil_r; auto.
    - destruct (mop_queues _ _ _ _ H) as (_ & _ & _ & _ & _ & _ & _ & X & _). rewrite X. unfold published. cbn. destruct (op_label o x) as [| | | | | | |[]|]; reflexivity.
    - destruct (mop_queues _ _ _ _ H) as (_ & _ & _ & _ & _ & _ & _ & X & _). rewrite X. unfold published. cbn. destruct (op_label o x) as [| | | | | | |[]|]; reflexivity.
  Qed.
  Lemma env_pub (s : dsys U) l s' : dstep listener s l s' -> is_arrival l -> m_pub (d_mem s') = m_pub (d_mem s) /\ d_pc s' = d_pc s.
  Proof.
    intros H A. destruct H; cbn in A |- *; try contradiction; auto. exfalso. destruct H; cbn in A; auto.
    - destruct o; cbn in A; auto; [destruct e; auto|destruct x; auto].
    - destruct o; cbn in A; auto; [destruct e; auto|destruct x; auto].
  Qed.
  Lemma delivered_all j (s : dsys U) l s' : main_step listener s l s' ->
    f_all (m_pub (d_mem (delivered j s l s'))) = (f_all (m_pub (d_mem s)) ++ if j then given [JMain l] else [])%list.
  Proof.
    intros H. apply main_pub in H. unfold delivered. destruct l as [| | | | | | |e|]; try (rewrite H; now destruct j). destruct e; try (rewrite H; now destruct j).
    destruct j; [exact H|]. cbn. now rewrite app_nil_r.
  Qed.
  Lemma joined_all j0 ls j : jrun j0 ls j -> j_joined j0 = false -> f_all (m_pub (d_mem (j_sys j0))) = [] ->
    f_all (m_pub (d_mem (j_sys j))) = since_join ls /\ (j_joined j = true <-> In JJoin ls).
  Proof.
    assert (N : forall xs r, ~ In JJoin xs -> since_join (xs ++ r) = since_join r).
    { induction xs as [|l xs IH]; [reflexivity|]. cbn. intros r N. destruct l; try (apply IH; tauto). tauto. }
    assert (Y : forall xs r, In JJoin xs -> since_join (xs ++ r) = (since_join xs ++ given r)%list).
    { induction xs as [|a xs IH]; cbn; [tauto|]. intros r [I|I]; [rewrite I; apply given_app|]. destruct a; auto. apply given_app. }
    induction 1 as [j|j0 ls j1 l j2 H IH Hs]; intros J0 A0; [rewrite A0; cbn; split; [auto|split; [congruence|tauto]]|]. destruct (IH J0 A0) as (F & J). clear IH H.
    assert (D : (l = JJoin /\ j_joined j1 = false) \/ l <> JJoin /\ j_joined j2 = j_joined j1 /\
                 f_all (m_pub (d_mem (j_sys j2))) = (f_all (m_pub (d_mem (j_sys j1))) ++ if j_joined j1 then given [l] else [])%list).
    { destruct Hs; cbn [j_joined j_sys d_mem]; auto; right; (split; [discriminate|split; [reflexivity|]]).
      - cbn. destruct j; now rewrite app_nil_r.
      - cbn. destruct j; now rewrite app_nil_r.
      - cbn. destruct j; cbn; [apply f_all_push|now rewrite app_nil_r].
      - now apply delivered_all.
      - cbn. rewrite (fnext_all _ _ H1). destruct j; now rewrite app_nil_r.
      - cbn. destruct j; now rewrite app_nil_r.
      - destruct (env_pub _ _ _ H H0) as (-> & _). cbn. destruct j; now rewrite app_nil_r. }
    rewrite in_app_iff. cbn [In]. destruct D as [(-> & J1)|(N1 & J2 & F2)].
    - assert (~ In JJoin ls) as NI by (rewrite <- J, J1; discriminate). rewrite N by exact NI. cbn.
      inversion Hs; subst. cbn in *. split; [|tauto]. rewrite F. rewrite <- (app_nil_r ls), N by exact NI. reflexivity.
    - rewrite J2, F2, F. split; [|rewrite J; split; [auto|intros [I|[E|[]]]; [auto|congruence]]].
      destruct (j_joined j1) eqn:E1; [rewrite Y by tauto; reflexivity|]. rewrite app_nil_r. assert (~ In JJoin ls) as NI by (rewrite <- J; discriminate).
      rewrite N by exact NI. transitivity (since_join (ls ++ [])); [now rewrite app_nil_r|]. rewrite N by exact NI. cbn. destruct l; congruence.
  Qed.

  (** ** The threads do what they do in Server.v *)
  Definition with_pub (g : fwd) (s : dsys U) : dsys U := {| d_pc := d_pc s; d_mem := set_pub g (d_mem s) |}.
  Lemma mop_lag o m m' x g j : mop o m m' x -> lag (m_pub m) g ->
    exists g', mop o (set_pub g m) (set_pub g' m') x /\ lag (m_pub (d_mem (delivered j {| d_pc := MTest; d_mem := m |} (op_label o x) {| d_pc := MTest; d_mem := m' |}))) g'.
  Proof.
    destruct o; cbn [mop]; intros H R; try (match type of H with _ /\ _ => destruct H as [H1 H2] end; subst m' x; exists g; split; [split; reflexivity|exact R]; fail).
    - subst m'. destruct e; try (exists g; split; [reflexivity|exact R]; fail).
      exists (f_push w g). split; [reflexivity|]. cbn. destruct j; cbn; [now apply lag_push|now apply lag_drop].
    - destruct H as (H & -> & ->). exists g. split; [repeat split; exact H|exact R].
    - subst m'. exists g. auto.
    - destruct (m_shellq m) as [|w q] eqn:E; destruct H as [-> ->]; exists g; (split; [cbn; rewrite E; split; reflexivity|exact R]).
    - contradiction.
  Qed.
  Lemma with_delivered j pc pc' pc1 pc1' m m' l g :
    with_pub g (delivered j {| d_pc := pc; d_mem := m |} l {| d_pc := pc'; d_mem := m' |}) = {| d_pc := pc'; d_mem := set_pub g m' |} /\
    m_pub (d_mem (delivered j {| d_pc := pc; d_mem := m |} l {| d_pc := pc'; d_mem := m' |})) =
    m_pub (d_mem (delivered j {| d_pc := pc1; d_mem := m |} l {| d_pc := pc1'; d_mem := m' |})).
  Proof. destruct l as [| | | | | | |[]|], j; split; reflexivity. Qed.
  Lemma main_lag j s l s' g : main_step listener s l s' -> lag (m_pub (d_mem s)) g ->
    exists g', main_step listener (with_pub g s) l (with_pub g' (delivered j s l s')) /\ lag (m_pub (d_mem (delivered j s l s'))) g'.
  Proof.
    intros H R. destruct H; cbn [d_mem] in R; unfold with_pub at 1; cbn [d_pc d_mem].
    - exists g. split; [|exact R]. apply (ms_go listener (set_pub g m)). exact H.
    - exists g. split; [|exact R]. apply (ms_leave listener (set_pub g m)). exact H.
    - exists g. split; [|exact R]. exact (ms_poll listener (set_pub g m) H).
    - exists g. split; [|exact R]. exact (ms_control listener (set_pub g m) w q rs H).
    - destruct (mop_lag _ _ _ _ g j H R) as (g' & M & L). exists g'.
      destruct (with_delivered j (MInControl (Do o k) rs) (MInControl (k x) rs) MTest MTest m m' (op_label o x) g') as (-> & ->). split; [now constructor|exact L].
    - exists g. split; [|exact R]. econstructor.
    - exists g. split; [|exact R]. now constructor.
    - exists g. split; [|exact R]. exact (ms_shell listener (set_pub g m) rs).
    - exists g. split; [|exact R]. exact (ms_recv_shell listener (set_pub g m) w q H).
    - destruct (mop_lag _ _ _ _ g j H R) as (g' & M & L). exists g'.
      destruct (with_delivered j (MInShell (Do o k)) (MInShell (k x)) MTest MTest m m' (op_label o x) g') as (-> & ->). split; [now constructor|exact L].
    - exists g. split; [|exact R]. econstructor.
    - exists g. split; [|exact R]. now constructor.
    - exists (f_set (SAsked stop_frames) g). split; [|cbn; now apply lag_set]. apply (ms_stop1 listener (set_pub g m)). destruct R as (R & _). cbn. congruence.
    - exists (f_set SIdle g). split; [|cbn; now apply lag_set]. apply (ms_wait1 listener (set_pub g m) w). destruct R as (R & _). cbn. congruence.
    - exists g. split; [|exact R]. exact (ms_stop2 listener (set_pub g m) H).
    - exists g. split; [|exact R]. exact (ms_wait2 listener (set_pub g m) w H).
  Qed.
  Lemma pub_steps k st ls pc m f g : drun listener (d_init k st) ls {| d_pc := pc; d_mem := set_pub f m |} -> alive pc -> fsteps f g ->
    exists n, drun listener (d_init k st) (ls ++ repeat Tau n) {| d_pc := pc; d_mem := set_pub g m |}.
  Proof.
    intros H A S. revert ls H. induction S as [f|f g h N S IH]; intros ls H; [exists 0; now rewrite app_nil_r|].
    destruct (IH (ls ++ [Tau])%list) as (n & D).
    - econstructor; [exact H|]. exact (ds_pub listener pc (set_pub f m) g A N).
    - exists (Datatypes.S n). rewrite <- app_assoc in D. exact D.
  Qed.
  Lemma jmain_lag k ls j : jrun (j_init k) ls j ->
    (stage_rank (j_stage j) < 3 -> m_pub (d_mem (j_sys j)) = f_init /\ d_pc (j_sys j) = MTest) /\
    exists g l2, drun listener (d_init k start) l2 (with_pub g (j_sys j)) /\ lag (m_pub (d_mem (j_sys j))) g /\ filter visible l2 = seen ls.
  Proof.
    remember (j_init k) as j0 eqn:E. induction 1 as [|j0 ls j1 l j2 H IH Hs].
    - subst. split; [auto|]. exists (f_push start f_init), []. split; [constructor|]. split; [|reflexivity]. split; [reflexivity|]. split; [cbn; split; discriminate|].
      intros c; discriminate.
    - subst j0. destruct (IH eq_refl) as (B & g & l2 & D & L & V). clear IH H. unfold seen in *. rewrite flat_map_app. cbn [flat_map]. rewrite app_nil_r, <- V.
      destruct Hs; cbn [j_stage j_sys stage_rank d_mem d_pc] in *.
      + split; [intros _; apply B; lia|]. exists g, l2. rewrite app_nil_r. auto.
      + split; [intros _; apply B; lia|]. exists g, l2. rewrite app_nil_r. auto.
      + split; [lia|]. destruct (B ltac:(lia)) as (B1 & B2). exists g, l2. rewrite app_nil_r. split; [exact D|]. split; [|reflexivity].
        destruct L as (L1 & L2 & L3). rewrite B1 in *. destruct j; split; auto.
      + split; [exact B|]. exists g, l2. rewrite app_nil_r. auto.
      + split; [lia|]. destruct (main_lag j _ _ _ _ H L) as (g' & M & L'). exists g', (l2 ++ [l])%list. split; [econstructor; [exact D|now constructor]|]. split; auto.
        rewrite filter_app. cbn. now destruct (visible l).
      + destruct (lag_next _ _ _ L H1) as (g' & S & L').
        split.
        { intros K. destruct (B K) as (B1 & B2). rewrite B1 in H1. discriminate. }
        destruct (pub_steps k start l2 pc m g g' D H0 S) as (n & D'). exists g', (l2 ++ repeat Tau n)%list. split; [exact D'|]. split; auto.
        rewrite filter_app, app_nil_r. replace (filter visible (repeat Tau n)) with (@nil label); [now rewrite app_nil_r|]. clear. induction n; cbn; auto.
      + split; [intros K; apply B in K; exact K|]. exists g, (l2 ++ [Tau])%list. split; [econstructor; [exact D|]; exact (ds_hb listener pc (set_pub g m) f H0 H1)|]. split; [exact L|].
        rewrite filter_app. reflexivity.
      + destruct (env_pub _ _ _ H H0) as (P1 & P2). rewrite P1, P2. split; [exact B|]. exists g, (l2 ++ [l])%list. split; [|split; [exact L|]].
        * econstructor; [exact D|]. destruct H; cbn in H0; try contradiction; unfold with_pub; cbn.
          -- exfalso. destruct H; cbn in H0; auto; destruct o; cbn in H0; auto; [destruct e; auto|destruct x; auto|destruct e; auto|destruct x; auto].
          -- exact (ds_control listener pc (set_pub g m) w).
          -- exact (ds_shell listener pc (set_pub g m) w).
          -- exact (ds_beat listener pc (set_pub g m) w).
          -- exact (ds_stdin listener pc (set_pub g m)).
        * rewrite filter_app. cbn. now destruct (visible l).
  Qed.
End Sim.
