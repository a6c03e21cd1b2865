(** Waiting for messages, processing the queue, and the main loop of the debug adapter client. *)
From Verif Require Import Base BaseFacts Json JsonText JsonTextProofs Auth Message Dap DapSpec DapProofs.

(** ** The stream over several calls *)
Inductive reads : list string -> list string -> list string -> Prop :=
| reads_none net : reads net [] net
| reads_more net net' net'' q1 q2 : handle_tcp net [] = (net', q1, Done tt) -> reads net' q2 net'' -> reads net (q1 ++ q2) net''.

Theorem handle_tcp_stream bodies rest net queue :
  dap_stream bodies (sconcat net +++ rest) ->
  exists b1 b2 used net' o, handle_tcp net queue = (net', (queue ++ b1)%list, o) /\
    bodies = (b1 ++ b2)%list /\ net = (used ++ net')%list /\
    ((o = Waits /\ net' = [] /\ (rest = "" -> bodies = [])) \/
     (o = Done tt /\ b1 <> [] /\ used <> [] /\ dap_stream b2 (sconcat net' +++ rest))).
Proof.
  intros (ts & Hts & Hs). destruct (handle_tcp_ok dap_message net queue bodies ts rest message_shaped Hts Hs) as (b1 & b2 & ts2 & used & net' & o & R & Hb & Hn & H).
  exists b1, b2, used, net', o. repeat split; auto. destruct H as [H|(H1 & H2 & H3 & H4 & H5)]; [auto|]. right. repeat split; auto. now exists ts2.
Qed.
Theorem reads_stream bodies rest net q net' : dap_stream bodies (sconcat net +++ rest) -> reads net q net' ->
  exists b2, bodies = (q ++ b2)%list /\ dap_stream b2 (sconcat net' +++ rest).
Proof.
  intros H R. revert bodies H. induction R as [|net net' net'' q1 q2 H1 R IH]; intros bodies H.
  - exists bodies. auto.
  - destruct (handle_tcp_stream _ _ _ [] H) as (b1 & b2 & used & n' & o & E & -> & -> & Ho). rewrite H1 in E. injection E as <- -> <-.
    destruct Ho as [(Ho & _)|(_ & _ & _ & Ho)]; [discriminate|]. destruct (IH _ Ho) as (b3 & -> & Hb). exists b3. now rewrite <- app_assoc.
Qed.
Theorem reads_all bodies : forall net, dap_stream bodies (sconcat net) -> exists net', reads net bodies net' /\ sconcat net' = "".
Proof.
  remember (List.length bodies) as n eqn:E. revert bodies E. induction n as [n IH] using lt_wf_ind. intros bodies -> net H.
  destruct bodies as [|b bs].
  - exists net. split; [constructor|]. destruct H as (ts & Hts & Hs). inversion Hts; subst. exact Hs.
  - rewrite <- (sapp_nil_r (sconcat net)) in H.
    destruct (handle_tcp_stream _ _ _ [] H) as (b1 & b2 & used & net' & o & E & Eb & En & Ho).
    destruct Ho as [(_ & _ & Ho)|(-> & Hb & _ & Ho)]; [specialize (Ho eq_refl); discriminate|]. rewrite sapp_nil_r in Ho.
    destruct (IH (List.length b2)) with (bodies := b2) (net := net') as (net'' & R & Hn); auto.
    { rewrite Eb, app_length. destruct b1; [contradiction|cbn; lia]. }
    exists net''. split; auto. rewrite Eb. econstructor; eauto.
Qed.

(** ** wait_for_message *)
Section WaitFor.
  Context (cond : json -> res bool).
  Notation meets := (meets parse cond). Notation fails := (fails parse cond). Notation defined := (defined parse cond).
  Notation rejected_of := (rejected_of parse cond).
  Lemma meets_fun raw j j' : meets raw j -> meets raw j' -> j = j'.
  Proof. intros [H _] [H' _]. congruence. Qed.
  Lemma fails_meets raw j : fails raw -> meets raw j -> False.
  Proof. intros (j' & H1 & H2) [H3 H4]. congruence. Qed.
  Lemma find_msg_ok q : forall seen, Forall defined q ->
    (find_msg cond seen q = Ok None /\ Forall fails q) \/
    (exists a raw b j, q = (a ++ raw :: b)%list /\ Forall fails a /\ meets raw j /\ find_msg cond seen q = Ok (Some (j, rev seen ++ a ++ b)%list)).
  Proof.
    induction q as [|raw q IH]; intros seen H; [left; auto|]. inversion H as [|? ? H1 H2]; subst. cbn [find_msg].
    destruct H1 as [(j & P & C)|F].
    - right. exists [], raw, q, j. repeat split; auto. cbn. rewrite P. cbn. now rewrite C.
    - pose proof F as (j & P & C). rewrite P. cbn. rewrite C. cbn. destruct (IH (raw :: seen) H2) as [[E F']|(a & r & b & j' & -> & F' & M & E)].
      + left. auto.
      + right. exists (raw :: a), r, b, j'. repeat split; auto; try apply M. rewrite E. cbn. now rewrite <- app_assoc.
  Qed.
  (** The last message of [l] that meets the condition. *)
  Definition last_of (l : list string) (j : json) : Prop := exists a raw b, l = (a ++ raw :: b)%list /\ meets raw j /\ Forall fails b.
  Lemma sort_stopped_ok l : forall found queue, Forall defined l ->
    exists kept r, sort_stopped cond found l queue = ([], (queue ++ kept)%list, Ok r) /\ rejected_of l kept /\
      ((Forall fails l /\ r = found) \/ exists j, r = Some j /\ last_of l j).
  Proof.
    induction l as [|raw l IH]; intros found queue H.
    - exists [], found. rewrite app_nil_r. repeat split; auto. constructor.
    - inversion H as [|? ? H1 H2]; subst. cbn [sort_stopped]. destruct H1 as [(j & P & C)|F].
      + rewrite P. cbn. rewrite C. cbn. destruct (IH (Some j) queue H2) as (kept & r & E & R & O). exists kept, r. repeat split; auto.
        * econstructor; eauto. split; eauto.
        * right. destruct O as [[F ->]|(j' & -> & a & raw' & b & -> & M & F)].
          -- exists j. split; auto. exists [], raw, l. repeat split; auto.
          -- exists j'. split; auto. exists (raw :: a), raw', b. repeat split; auto; apply M.
      + pose proof F as (j & P & C). rewrite P. cbn. rewrite C. cbn. destruct (IH found (queue ++ [raw])%list H2) as (kept & r & E & R & O).
        exists (raw :: kept), r. rewrite <- app_assoc in E. repeat split; auto.
        * now constructor.
        * destruct O as [[F' ->]|(j' & -> & a & raw' & b & -> & M & F')]; [left; auto|]. right. exists j'. split; auto. exists (raw :: a), raw', b. repeat split; auto; apply M.
  Qed.
  Lemma rejected_app a a' b b' : rejected_of a a' -> rejected_of b b' -> rejected_of (a ++ b) (a' ++ b').
  Proof. intros Ha Hb. induction Ha; cbn; auto; [eapply rejected_skip; eauto|eapply rejected_keep; eauto]. Qed.
  Lemma rejected_all l l' : Forall fails l -> rejected_of l l' -> l' = l.
  Proof.
    intros F R. induction R as [|raw j l l' M R IH|raw l l' Fr R IH]; auto; inversion F; subst.
    - exfalso. eauto using fails_meets.
    - now rewrite IH.
  Qed.
  Lemma last_of_app a l j : last_of l j -> last_of (a ++ l) j.
  Proof. intros (u & raw & v & -> & M & F). exists (a ++ u)%list, raw, v. rewrite <- app_assoc. auto. Qed.

  (** What a state keeps during a wait. *)
  Definition same_rest (c c' : client) : Prop :=
    c_ctl c' = c_ctl c /\ c_hdr c' = c_hdr c /\ c_owed c' = c_owed c /\ c_parent c' = c_parent c /\ c_stop c' = c_stop c /\
    c_attach c' = c_attach c /\ c_ids c' = c_ids c /\ c_log c' = c_log c.
  Lemma same_rest_trans a b c : same_rest a b -> same_rest b c -> same_rest a c.
  Proof. unfold same_rest. intuition congruence. Qed.

  Lemma wait_loop_ok : forall fuel c bodies rest,
    dap_stream bodies (sconcat (c_net c) +++ rest) -> Forall defined bodies -> c_stopped c = [] -> List.length (c_net c) < fuel ->
    exists c' o b1 b2 kept used, wait_loop fuel cond c = (c', o) /\ bodies = (b1 ++ b2)%list /\ rejected_of b1 kept /\ c_net c = (used ++ c_net c')%list /\
      c_queue c' = (c_queue c ++ kept)%list /\ same_rest c c' /\
      ((o = Waits /\ (rest = "" -> Forall fails bodies)) \/
       (exists j a l, o = Done j /\ c_stopped c' = [] /\ b1 = (a ++ l)%list /\ Forall fails a /\ last_of l j /\ dap_stream b2 (sconcat (c_net c') +++ rest) /\
         exists n1 n2, c_net c = (n1 ++ n2)%list /\ handle_tcp n2 [] = (c_net c', l, Done tt))).
  Proof.
    induction fuel as [|fuel IH]; intros c bodies rest Hs Hd Hst Hf; [lia|]. cbn [wait_loop].
    destruct (handle_tcp_stream _ _ _ (c_stopped c) Hs) as (b1 & b2 & used & net' & o & E & -> & En & Ho). rewrite Hst in *. rewrite E.
    apply Forall_app in Hd. destruct Hd as [Hd1 Hd2].
    destruct Ho as [(-> & -> & Ho)|(-> & Hb & Hu & Ho)].
    - eexists _, _, [], (b1 ++ b2)%list, [], (c_net c). split; [reflexivity|]. cbn. rewrite app_nil_r. repeat split; auto; [apply rejected_nil|rewrite app_nil_r; auto|]. left. split; auto. intros Hr.
      specialize (Ho Hr). rewrite Ho. constructor.
    - cbn [app]. cbn [c_stopped set_net set_stopped c_queue].
      destruct (sort_stopped_ok b1 None (c_queue c) Hd1) as (kept & r & Es & R & Or). rewrite Es.
      set (c1 := set_stopped [] (set_queue (c_queue c ++ kept) (set_net net' (set_stopped b1 c)))).
      assert (S1 : same_rest c c1) by (repeat split).
      destruct Or as [[F ->]|(j & -> & L)].
      + assert (Hn : List.length net' < fuel).
        { rewrite En, app_length in Hf. destruct used; [contradiction|cbn in Hf; lia]. }
        destruct (IH c1 b2 rest Ho Hd2 eq_refl Hn) as (c' & o & b3 & b4 & kept' & used' & E' & -> & R' & En' & Eq' & S' & O').
        exists c', o, (b1 ++ b3)%list, b4, (kept ++ kept')%list, (used ++ used')%list. cbn in En', Eq'.
        split; [exact E'|]. split; [now rewrite app_assoc|]. split; [now apply rejected_app|]. split; [rewrite En, En'; now rewrite app_assoc|].
        split; [rewrite Eq'; now rewrite app_assoc|]. split; [exact (same_rest_trans _ _ _ S1 S')|].
        destruct O' as [[-> O']|(j & a & l & -> & O1 & -> & O3 & O4 & O5 & n1 & n2 & O6 & O7)]; [left|right].
        * split; auto. intros Hr. apply Forall_app. auto.
        * exists j, (b1 ++ a)%list, l. repeat split; auto; [now rewrite app_assoc|apply Forall_app; auto|].
          exists (used ++ n1)%list, n2. rewrite En. cbn in O6. rewrite O6, app_assoc. auto.
      + exists c1, (Done j), b1, b2, kept, used. split; [reflexivity|]. repeat split; auto. right. exists j, [], b1. repeat split; auto.
        exists [], (c_net c). auto.
  Qed.

  Theorem wait_for_ok c bodies rest :
    dap_stream bodies (sconcat (c_net c) +++ rest) -> Forall defined (c_queue c) -> Forall defined bodies -> c_stopped c = [] ->
    exists c' o, wait_for_message cond c = (c', o) /\ same_rest c c' /\
      ((o = Waits /\ (rest = "" -> Forall fails (c_queue c ++ bodies))) \/
       (exists j a raw b, o = Done j /\ c_queue c = (a ++ raw :: b)%list /\ Forall fails a /\ meets raw j /\ c_stopped c' = [] /\ c_net c' = c_net c /\ c_queue c' = (a ++ b)%list) \/
       (exists j b1 b2 kept u l, o = Done j /\ Forall fails (c_queue c) /\ bodies = (b1 ++ b2)%list /\ rejected_of b1 kept /\ c_queue c' = (c_queue c ++ kept)%list /\
         c_stopped c' = [] /\ b1 = (u ++ l)%list /\ Forall fails u /\ last_of l j /\ dap_stream b2 (sconcat (c_net c') +++ rest) /\
         exists n1 n2, c_net c = (n1 ++ n2)%list /\ handle_tcp n2 [] = (c_net c', l, Done tt))).
  Proof.
    intros Hs Hq Hd Hst. unfold wait_for_message. destruct (find_msg_ok (c_queue c) [] Hq) as [[E F]|(a & raw & b & j & Eq & F & M & E)]; rewrite E.
    - destruct (wait_loop_ok (S (List.length (c_net c))) c bodies rest Hs Hd Hst (Nat.lt_succ_diag_r _)) as (c' & o & b1 & b2 & kept & used & E' & Eb & R & En & Eq & S & O).
      exists c', o. repeat split; auto; try apply S. destruct O as [[-> O]|(j & u & l & -> & O1 & O2 & O3 & O4 & O5 & O6)].
      + left. split; auto. intros Hr. apply Forall_app. auto.
      + right. right. exists j, b1, b2, kept, u, l. repeat (split; [assumption || reflexivity|]). exact O6.
    - eexists _, _. split; [reflexivity|]. split; [repeat split|]. right. left. exists j, a, raw, b. repeat split; auto; apply M.
  Qed.

  (** At most one message of the stream meets the condition: only the result is removed. *)
  Lemma rejected_one l kept : at_most_one (fun raw => exists j, meets raw j) l -> rejected_of l kept ->
    forall j, last_of l j -> exists raw, meets raw j /\ without raw l kept.
  Proof.
    intros A R j (a & raw & b & -> & M & F). exists raw. split; auto. exists a, b. split; auto.
    assert (Fa : Forall fails a).
    { assert (D : rejected_of (a ++ raw :: b) kept) by auto. clear R. revert kept D A. induction a as [|x a IH]; intros kept D A; [constructor|].
      cbn in D. inversion D as [|r jr l l' Mr D' |r l l' Fr D']; subst.
      - exfalso. apply (A [] x a raw b); eauto.
      - constructor; auto. eapply IH; eauto. intros a0 x0 b0 y d E. apply (A (x :: a0) x0 b0 y d). cbn. now f_equal. }
    clear A. revert kept R. induction Fa as [|x a Fx Fa IH]; intros kept R; cbn in *.
    - inversion R as [|r jr l l' Mr D'|r l l' Fr D']; subst; [now apply rejected_all in D'|]. exfalso. eauto using fails_meets.
    - inversion R as [|r jr l l' Mr D'|r l l' Fr D']; subst; [exfalso; eauto using fails_meets|]. f_equal. now apply IH.
  Qed.
  Lemma without_app {A} (m : A) q l l' : without m l l' -> without m (q ++ l) (q ++ l').
  Proof. intros (a & b & -> & ->). exists (q ++ a)%list, b. now rewrite !app_assoc. Qed.
  Lemma without_app_r {A} (m : A) q l l' : without m l l' -> without m (l ++ q) (l' ++ q).
  Proof. intros (a & b & -> & ->). exists a, (b ++ q)%list. now rewrite <- !app_assoc. Qed.
  Lemma at_most_one_app {A} (P : A -> Prop) l l' : at_most_one P (l ++ l') -> at_most_one P l.
  Proof. intros H a x b y d ->. apply (H a x b y (d ++ l')%list). rewrite <- app_assoc. cbn. now rewrite <- app_assoc. Qed.
  Theorem wait_keeps c bodies rest :
    dap_stream bodies (sconcat (c_net c) +++ rest) -> Forall defined (c_queue c) -> Forall defined bodies -> c_stopped c = [] ->
    at_most_one (fun raw => exists j, meets raw j) bodies ->
    exists c' o, wait_for_message cond c = (c', o) /\ same_rest c c' /\
      ((o = Waits /\ (rest = "" -> Forall fails (c_queue c ++ bodies))) \/
       (exists j raw b1 b2, o = Done j /\ meets raw j /\ bodies = (b1 ++ b2)%list /\ without raw (c_queue c ++ b1) (c_queue c') /\
          c_stopped c' = [] /\ dap_stream b2 (sconcat (c_net c') +++ rest))).
  Proof.
    intros Hs Hq Hd Hst A. destruct (wait_for_ok c bodies rest Hs Hq Hd Hst) as (c' & o & E & S & O). exists c', o. repeat (split; auto).
    destruct O as [O|[(j & a & raw & b & -> & Eq & F & M & S' & En & Eq')|(j & b1 & b2 & kept & u & l & -> & F & -> & R & Eq & S' & -> & Fu & L & D & _)]]; [auto| |]; right.
    - exists j, raw, [], bodies. rewrite app_nil_r, En. repeat split; auto; try apply M. exists a, b. auto.
    - destruct (rejected_one (u ++ l) kept (at_most_one_app _ _ _ A) R j) as (raw & M & W); [now apply last_of_app|].
      exists j, raw, (u ++ l)%list, b2. repeat split; auto; try apply M. rewrite Eq. now apply without_app.
  Qed.
End WaitFor.

(** ** process_message_queue *)
Lemma routed_app a b : routed (a ++ b) = (routed a ++ routed b)%list.
Proof. apply filter_app. Qed.
Lemma json_eqb_str v s : json_eqb v (JStr s) = true <-> v = JStr s.
Proof. destruct v; cbn; split; try discriminate. - intros H. apply String.eqb_eq in H. now subst. - intros [= ->]. apply String.eqb_refl. Qed.
Lemma jget_mut_field k j v j' : jget_mut k j = Ok (v, j') ->
  (forall s, v = JStr s <-> jfield k j = Some (JStr s)) /\ (forall k', k' <> k -> jfield k' j' = jfield k' j) /\ (jfield k j <> None -> j' = j).
Proof.
  destruct j; cbn; try discriminate.
  - intros [= <- <-]. repeat split; try discriminate. + intros k' N. cbn. destruct (String.eqb_spec k' k); [contradiction|reflexivity]. + contradiction.
  - destruct (mfind k m) as [x|] eqn:E; intros [= <- <-]; repeat split; try discriminate; try congruence.
    intros k' N. cbn. now apply mfind_mset_other.
Qed.

(** What the client keeps while it processes its queue. *)
Definition kept_by_queue (c c' : client) : Prop :=
  c_net c' = c_net c /\ c_ctl c' = c_ctl c /\ c_hdr c' = c_hdr c /\ c_parent c' = c_parent c /\ c_attach c' = c_attach c /\ c_stopped c' = c_stopped c.
Lemma kept_trans a b c : kept_by_queue a b -> kept_by_queue b c -> kept_by_queue a c.
Proof. unfold kept_by_queue. intuition congruence. Qed.
Section Queue.
  Context (E : dapenv).
  (** Actions of event handlers: nothing routed, nothing else changed. *)
  Definition quiet_step (c c' : client) : Prop :=
    kept_by_queue c c' /\ c_queue c' = c_queue c /\ c_stop c' = c_stop c /\ c_owed c' = c_owed c /\ exists new, c_log c' = (c_log c ++ new)%list /\ routed new = [].
  Lemma quiet_refl c : quiet_step c c.
  Proof. repeat split. exists []. now rewrite app_nil_r. Qed.
  Lemma quiet_trans a b c : quiet_step a b -> quiet_step b c -> quiet_step a c.
  Proof.
    intros (K1 & Q1 & S1 & O1 & n1 & L1 & R1) (K2 & Q2 & S2 & O2 & n2 & L2 & R2). split; [eapply kept_trans; eauto|]. repeat split; try congruence.
    exists (n1 ++ n2)%list. rewrite L2, L1, app_assoc. split; auto. now rewrite routed_app, R1, R2.
  Qed.
  Definition quiet {A} (p : D A) : Prop := forall c, quiet_step c (fst (p c)).
  Lemma quiet_bind {A B} (p : D A) (f : A -> D B) : quiet p -> (forall a, quiet (f a)) -> quiet (dbind p f).
  Proof.
    intros Hp Hf c. specialize (Hp c). unfold dbind. destruct (p c) as [c' [a|e|w|]]; cbn in *; auto. eapply quiet_trans; eauto. apply Hf.
  Qed.
  Lemma quiet_lift {A} (r : res A) : quiet (dlift r).
  Proof. intros c. apply quiet_refl. Qed.
  Lemma quiet_log a : routed [a] = [] -> quiet (dmod (log a)).
  Proof. intros H c. repeat split. exists [a]. auto. Qed.
  Lemma quiet_read {A} (f : client -> io A) : quiet (fun c => (c, f c)).
  Proof. intros c. apply quiet_refl. Qed.
  Lemma quiet_forward j : quiet (forward_event E j).
  Proof.
    intros c. unfold forward_event. eapply quiet_trans with (b := log (ACallback j) c).
    { repeat split. exists [ACallback j]. auto. }
    match goal with |- quiet_step ?c (fst (?p ?c)) => assert (Q : quiet p); [|exact (Q c)] end.
    apply quiet_bind; [apply quiet_lift|intros _]. apply quiet_bind; [intros c'; repeat split; exists []; now rewrite app_nil_r|intros n].
    apply quiet_bind; [apply quiet_read|intros ph]. apply quiet_bind; [apply quiet_lift|intros w]. now apply quiet_log.
  Qed.
  Lemma quiet_request j : quiet (send_dap_request j).
  Proof. apply quiet_bind; [apply quiet_lift|intros t]. now apply quiet_log. Qed.
  Lemma quiet_ucalls l : quiet (ucalls E l).
  Proof.
    induction l as [|[j|j] l IH]; cbn [ucalls]; [intros c; apply quiet_refl| |]; apply quiet_bind; auto using quiet_forward, quiet_request.
  Qed.
  Lemma handle_event_log j c : exists new, c_log (fst (handle_event E j c)) = (c_log c ++ AEvent j :: new)%list /\ routed new = [] /\
    kept_by_queue c (fst (handle_event E j c)) /\ c_queue (fst (handle_event E j c)) = c_queue c /\ c_stop (fst (handle_event E j c)) = c_stop c /\ c_owed (fst (handle_event E j c)) = c_owed c.
  Proof.
    unfold handle_event. cbn. destruct (dp_event E (c_log c ++ [AEvent j]) (c_parent c) j) as [l r].
    assert (Q : quiet (dbind (ucalls E l) (fun _ => dlift r))) by (apply quiet_bind; [apply quiet_ucalls|intros _; apply quiet_lift]).
    destruct (Q (log (AEvent j) c)) as (K & Eq & Es & Eo & new & L & R). exists new. rewrite L. cbn. rewrite <- app_assoc. repeat split; auto; apply K.
  Qed.

  (** One message. *)
  Lemma process_message_ok raw c c' : process_message E raw c = (c', Done tt) ->
    exists a new, dispatched raw a /\ c_log c' = (c_log c ++ a :: new)%list /\ routed new = [] /\ kept_by_queue c c' /\ c_queue c' = c_queue c /\
      (c_stop c' = true <-> c_stop c = true \/ asks_stop raw) /\
      match a with AReply _ => c_owed c = true /\ c_owed c' = false | _ => c_owed c' = c_owed c end.
  Proof.
    unfold process_message, dbind, dlift. destruct (parse raw) as [j| |] eqn:P; cbn [io_of]; try discriminate.
    destruct (jget_mut "type" j) as [[ty j']| |] eqn:T; cbn [io_of]; try discriminate.
    destruct (jget_mut_field _ _ _ _ T) as (T1 & T2 & T3). specialize (T1 "event").
    destruct (json_eqb ty (JStr "event")) eqn:B.
    - apply json_eqb_str in B. intros H. assert (Ev : is_event j) by (unfold is_event; now apply T1). rewrite T3 in H by (unfold is_event in Ev; congruence).
      destruct (handle_event_log j c) as (new & L & R & K & Q & S & O). rewrite H in *. cbn in *.
      exists (AEvent j), new. split; [exists j; auto|]. repeat split; auto; try apply K.
      + rewrite S. auto.
      + rewrite S. intros [H'|(j'' & P' & N & _)]; [auto|]. assert (j'' = j) by congruence. subst. contradiction.
    - assert (Ev : ~ is_event j). { intros H. apply T1 in H. apply json_eqb_str in H. congruence. }
      destruct (jget_mut "command" j') as [[cmd j'']| |] eqn:C; cbn [io_of]; try discriminate.
      destruct (jget_mut_field _ _ _ _ C) as (C1 & _ & _). specialize (C1 "disconnect"). rewrite T2 in C1 by discriminate.
      assert (St : json_eqb cmd (JStr "disconnect") = true <-> asks_stop raw).
      { rewrite json_eqb_str, C1. split; [intros H; exists j; auto|]. intros (j0 & P0 & _ & H). assert (j0 = j) by congruence. now subst. }
      assert (Ds : dispatched raw (AReply raw)) by (exists j; auto).
      destruct (json_eqb cmd (JStr "disconnect")); unfold dmod, dret, reply; cbn [c_owed set_stop];
        (destruct (c_owed c) eqn:O; [|discriminate]); intros [= <-]; exists (AReply raw), []; cbn; repeat split; auto; try tauto.
      intros [H|H]; auto. apply St in H. discriminate.
  Qed.

  Theorem process_queue_ok q : forall c c', process_queue E q c = (c', Done tt) ->
    exists acts new, Forall2 dispatched q acts /\ c_log c' = (c_log c ++ new)%list /\ routed new = acts /\ kept_by_queue c c' /\ c_queue c' = [] /\
      (c_stop c' = true <-> c_stop c = true \/ exists raw, In raw q /\ asks_stop raw).
  Proof.
    induction q as [|raw q IH]; intros c c' H; cbn [process_queue] in H.
    - injection H as <-. exists [], []. rewrite app_nil_r. cbn. split; [constructor|]. repeat split; auto. intros [H|(raw & [] & _)]. auto.
    - destruct (process_message E raw (set_queue (raw :: q) c)) as [c1 [[]| | |]] eqn:M; try discriminate.
      apply process_message_ok in M. destruct M as (a & n1 & D1 & L1 & R1 & K1 & Q1 & S1 & O1).
      apply IH in H. destruct H as (acts & n2 & D2 & L2 & R2 & K2 & Q2 & S2).
      assert (Ra : routed (a :: n1) = [a]). { destruct D1 as (j & _ & [[_ ->]|[_ ->]]); unfold routed in *; cbn; now rewrite R1. }
      exists (a :: acts), ((a :: n1) ++ n2)%list. split; [now constructor|]. split; [rewrite L2, L1; cbn; now rewrite <- app_assoc|].
      split; [now rewrite routed_app, Ra, R2|]. split; [eapply kept_trans; [|exact K2]; exact K1|]. split; auto.
      rewrite S2, S1. cbn [c_stop set_queue In]. split.
      + intros [[H|H]|(r & H & H')]; eauto 6.
      + intros [H|(r & [<-|H] & H')]; eauto 6.
  Qed.

  (** When does it succeed? Every message is an object, no handler fails, and a non-event message answers the
      one outstanding request. *)
  Definition events_handled (c : client) (q : list string) : Prop :=
    forall raw j c', In raw q -> parse raw = Ok j -> is_event j -> c_parent c' = c_parent c -> snd (handle_event E j c') = Done tt.
  Lemma jget_mut_obj k m : exists v m', jget_mut k (JObj m) = Ok (v, JObj m').
  Proof. cbn. destruct (mfind k m); eauto. Qed.
  Theorem process_queue_done q : forall c, Forall (fun raw => exists m, parse raw = Ok (JObj m)) q -> events_handled c q ->
    at_most_one is_answer q -> (forall raw, In raw q -> is_answer raw -> c_owed c = true) ->
    exists c', process_queue E q c = (c', Done tt).
  Proof.
    induction q as [|raw q IH]; intros c Ho Hh Ha Hw; cbn [process_queue]; [eauto|]. inversion Ho as [|? ? (m & P) Ho']; subst.
    assert (M : exists c1, process_message E raw (set_queue (raw :: q) c) = (c1, Done tt) /\ c_parent c1 = c_parent c /\ (~ is_answer raw -> c_owed c1 = c_owed c)).
    { unfold process_message, dbind, dlift. rewrite P. cbn [io_of]. destruct (jget_mut_obj "type" m) as (ty & m' & T). rewrite T. cbn [io_of].
      destruct (jget_mut_field _ _ _ _ T) as (T1 & T2 & T3). specialize (T1 "event").
      destruct (json_eqb ty (JStr "event")) eqn:B.
      - apply json_eqb_str in B. assert (Ev : is_event (JObj m)) by (unfold is_event; now apply T1). rewrite T3 by (unfold is_event in Ev; congruence).
        destruct (handle_event_log (JObj m) (set_queue (raw :: q) c)) as (new & _ & _ & K & _ & _ & O).
        pose proof (Hh raw (JObj m) (set_queue (raw :: q) c) (or_introl eq_refl) P Ev eq_refl) as R.
        destruct (handle_event E (JObj m) (set_queue (raw :: q) c)) as [c1 o]. cbn in *. subst o. exists c1. split; auto. split; [apply K|auto].
      - assert (An : is_answer raw). { exists (JObj m). split; auto. intros H. apply T1 in H. apply json_eqb_str in H. congruence. }
        destruct (jget_mut_obj "command" m') as (cmd & m'' & C). rewrite C. cbn [io_of].
        assert (O : c_owed c = true) by (apply (Hw raw); cbn; auto).
        destruct (json_eqb cmd (JStr "disconnect")); unfold dmod, dret, reply; cbn [c_owed set_stop set_queue]; rewrite O; eexists; (split; [reflexivity|]); cbn; tauto. }
    destruct M as (c1 & M & Hp & Hk). rewrite M. apply IH; auto.
    - intros r j c2 Hi Hp' He Hc. apply (Hh r j c2); cbn; auto. congruence.
    - intros a x b y d -> Hx Hy. apply (Ha (raw :: a) x b y d); auto.
    - intros r Hi Hr. rewrite Hk; [apply (Hw r); cbn; auto|]. intros Hn. apply in_split in Hi. destruct Hi as (u & v & ->). exact (Ha [] raw u r v eq_refl Hn Hr).
  Qed.
End Queue.
