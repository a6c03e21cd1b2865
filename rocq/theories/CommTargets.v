(** Which targets comms can be created on. *)
From Verif Require Import Base BaseFacts Json Comm CommSpec CommProofs.

(** The target [name] is registered after [ops]. *)
Definition registered (name : string) (ops : list cop) : Prop :=
  exists before cb after, ops = (before ++ CRegTarget name cb :: after)%list /\ ~ In (CUnregTarget name) after.

(** Code has asked for the target [name], and it has not been unregistered since. *)
Definition looked_up (name : string) (ops : list cop) : Prop :=
  exists before after, ops = (before ++ CTarget name :: after)%list /\ ~ In (CUnregTarget name) after.

Definition bare (cs : comms) : comms :=
  {| heap := fun _ => None; next_addr := next_addr cs; registry := registry cs; targets := targets cs; next_node := next_node cs |}.
Definition nodes_ok (cs : comms) : Prop := tgt_ok (bare cs).
Definition manages (name : string) (cs : comms) (b : bool) : Prop :=
  match mfind name (targets cs) with Some (_, t) => t_manager t = b | None => b = false end.
Definition reg1 (name : string) (b : bool) (o : cop) : bool :=
  match o with
  | CRegTarget n _ => if String.eqb n name then true else b
  | CUnregTarget n => if String.eqb n name then false else b
  | _ => b
  end.

Lemma same_targets cs cs' : targets cs' = targets cs -> next_node cs' = next_node cs -> nodes_ok cs -> nodes_ok cs'.
Proof. intros Ht Hn (A & B & C & D). unfold nodes_ok, tgt_ok, bare in *. cbn in *. rewrite Ht, Hn. repeat split; auto; intros a c [=]. Qed.
Lemma kept_targets pol o cs cs' : (match o with CTarget _ | CRegTarget _ _ | CUnregTarget _ => False | _ => True end) -> cstep pol o cs = Ok cs' ->
  targets cs' = targets cs /\ next_node cs' = next_node cs.
Proof.
  destruct o as [p id|a|a id|d s|d s id|a|a h|a h|id|name|name cb|name]; cbn [cstep]; try contradiction; intros _.
  - unfold comm_new. destruct (register_comm _ _ _ _) as [x| |] eqn:R; cbn [bind]; try discriminate. intros [= <-]. apply register_inv in R as ->. auto.
  - unfold comm_move. destruct (deref a cs); cbn [bind]; try discriminate. destruct (register_comm _ _ _ _) as [x| |] eqn:R; cbn [bind]; try discriminate. intros [= <-]. apply register_inv in R as ->. auto.
  - unfold comm_copy. destruct (deref a cs); cbn [bind]; try discriminate. destruct (register_comm _ _ _ _) as [x| |] eqn:R; cbn [bind]; try discriminate. intros [= <-]. apply register_inv in R as ->. auto.
  - unfold comm_move_assign. destruct (deref d cs); cbn [bind]; try discriminate. destruct (deref s cs); cbn [bind]; try discriminate.
    destruct (unregister_comm _ _ _) as [x| |] eqn:R; cbn [bind]; try discriminate. apply unregister_inv in R as ->. intros R. apply register_inv in R as ->. auto.
  - unfold comm_copy_assign. destruct (deref d cs); cbn [bind]; try discriminate. destruct (deref s cs); cbn [bind]; try discriminate.
    destruct (unregister_comm _ _ _) as [x| |] eqn:R; cbn [bind]; try discriminate. apply unregister_inv in R as ->. intros R. apply register_inv in R as ->. auto.
  - unfold comm_destroy. destruct (deref a cs) as [c| |]; cbn [bind]; try discriminate. destruct (read_flag pol a (c_moved c)) as [[]| |]; cbn [bind]; try discriminate.
    + intros [= <-]. auto.
    + destruct (unregister_comm _ _ _) as [x| |] eqn:R; cbn [bind]; try discriminate. apply unregister_inv in R as ->. intros [= <-]. auto.
  - unfold comm_on_message. destruct (deref a cs); cbn [bind]; try discriminate. intros [= <-]. auto.
  - unfold comm_on_close. destruct (deref a cs); cbn [bind]; try discriminate. intros [= <-]. auto.
  - intros [= <-]. auto.
Qed.
Lemma bare_node name cs : target_node name (bare cs) = (bare (fst (target_node name cs)), snd (target_node name cs)).
Proof. unfold target_node, bare. cbn. destruct (mfind name (targets cs)) as [[n t]|]; reflexivity. Qed.
Lemma node_nodes name cs : nodes_ok cs -> nodes_ok (fst (target_node name cs)).
Proof. intros H. pose proof (tgt_ok_node name (bare cs) {| t_name := ""; t_callback := None; t_manager := false |} H) as X. rewrite bare_node in X. apply X. Qed.
Lemma register_nodes name cb cs : nodes_ok cs -> nodes_ok (register_comm_target name cb cs).
Proof.
  intros H. pose proof (tgt_ok_node name (bare cs) {| t_name := name; t_callback := cb; t_manager := true |} H) as X. rewrite bare_node in X.
  unfold register_comm_target. destruct (target_node name cs) as [cs1 n]. exact (proj2 X).
Qed.
Lemma node_manages name cs : exists t, mfind name (targets (fst (target_node name cs))) = Some (snd (target_node name cs), t) /\
  forall b, manages name cs b -> t_manager t = b.
Proof.
  unfold target_node, manages. destruct (mfind name (targets cs)) as [[n t]|] eqn:F; cbn; [exists t; auto|].
  rewrite mfind_mset_same. eexists. split; [reflexivity|]. cbn. auto.
Qed.
Lemma node_other name m cs : m <> name -> mfind m (targets (fst (target_node name cs))) = mfind m (targets cs).
Proof. intros N. unfold target_node. destruct (mfind name (targets cs)) as [[n t]|]; cbn; auto. now apply mfind_mset_other. Qed.
Lemma manages_step pol o name b cs cs' : cstep pol o cs = Ok cs' -> nodes_ok cs -> manages name cs b -> nodes_ok cs' /\ manages name cs' (reg1 name b o).
Proof.
  intros H N M. destruct o as [p id|a|a id|d s|d s id|a|a h|a h|id|n|n cb|n];
    try (apply kept_targets in H as [H1 H2]; [|exact I]; split; [now apply (same_targets cs)|unfold manages in *; rewrite H1; exact M]).
  - cbn in H. injection H as <-. split; [now apply node_nodes|]. cbn [reg1]. unfold manages. destruct (String.eqb_spec n name) as [->|X].
    + destruct (node_manages name cs) as (t & -> & Hb). auto.
    + rewrite node_other by congruence. exact M.
  - cbn in H. injection H as <-. split; [now apply register_nodes|]. cbn [reg1]. unfold manages, register_comm_target.
    pose proof (node_other n name cs) as O. destruct (target_node n cs) as [cs1 k]. cbn [fst targets set_targets] in *. destruct (String.eqb_spec n name) as [->|X].
    + rewrite mfind_mset_same. reflexivity.
    + rewrite mfind_mset_other, O by congruence. exact M.
  - cbn in H. injection H as <-. destruct N as (A & B & C & D). cbn [bare targets next_node] in *.
    assert (Fd : forall m v, mfind m (mdel n (targets cs)) = Some v -> mfind m (targets cs) = Some v).
    { intros m v F. now apply mfind_mdel_inv in F as [_ F]. }
    split.
    + split; [now apply mdel_sorted|]. split; [|split]; cbn; [intros; eapply B; eauto|intros; eapply C; eauto|intros a c [=]].
    + cbn [reg1]. unfold manages, unregister_comm_target. cbn [targets set_targets]. rewrite mfind_mdel by exact A. rewrite (String.eqb_sym name n). now destruct (String.eqb n name).
Qed.
Lemma manages_steps pol P ops name : forall b cs cs', csteps pol P ops cs cs' -> nodes_ok cs -> manages name cs b ->
  nodes_ok cs' /\ manages name cs' (fold_left (reg1 name) ops b).
Proof.
  induction ops as [|o ops IH]; intros b cs cs' H N M; inversion H; subst; auto. cbn [fold_left].
  match goal with S : cstep _ _ _ = Ok ?c |- _ => destruct (manages_step _ _ _ _ _ _ S N M) as [N1 M1]; now apply (IH _ c) end.
Qed.
Lemma registered_fold name ops : fold_left (reg1 name) ops false = true <-> registered name ops.
Proof.
  assert (K : forall l b, ~ In (CUnregTarget name) l -> b = true -> fold_left (reg1 name) l b = true).
  { induction l as [|o l IH]; intros b N ->; auto. cbn [fold_left]. apply IH; [intros Hi; apply N; now right|].
    destruct o; cbn [reg1]; auto. - destruct (String.eqb name0 name); auto. - destruct (String.eqb_spec name0 name) as [->|]; auto. elim N. now left. }
  split.
  - assert (G : forall l b, fold_left (reg1 name) l b = true -> (b = true /\ ~ In (CUnregTarget name) l) \/ registered name l).
    { induction l as [|o l IH]; intros b H; [left; auto|]. cbn [fold_left] in H. apply IH in H as [[R N]|(x & cb & y & -> & N)].
      - destruct o as [p id|a|a id|d s|d s id|a|a h|a h|id|n|n cb|n]; cbn [reg1] in R; try (left; split; [exact R|intros [Z|Z]; [discriminate|contradiction]]).
        + destruct (String.eqb_spec n name) as [->|X]; [right; exists [], cb, l; auto|left; split; auto]. intros [Z|Z]; [discriminate|contradiction].
        + destruct (String.eqb_spec n name) as [->|X]; [discriminate|left; split; auto]. intros [Z|Z]; [congruence|contradiction].
      - right. exists (o :: x), cb, y. auto. }
    intros H. apply G in H as [[H _]|H]; [discriminate|exact H].
  - intros (x & cb & y & -> & N). rewrite fold_left_app. cbn [fold_left reg1]. rewrite String.eqb_refl. now apply K.
Qed.
Lemma nodes_init : nodes_ok no_comms.
Proof. exact tgt_ok_init. Qed.
(** A comm on the target that [target(name)] returns. *)
Theorem create_iff pol P ops cs name id : csteps pol P ops no_comms cs ->
  let (cs1, p) := target_node name cs in
  (registered name ops -> exists cs2 a, comm_new p id cs1 = Ok (cs2, a) /\ mfind id (registry cs2) = Some a /\ exists c, heap cs2 a = Some c /\ c_id c = id) /\
  (~ registered name ops -> is_ub (comm_new p id cs1) = true).
Proof.
  intros H. destruct (manages_steps pol P ops name false no_comms cs H nodes_init eq_refl) as [N M].
  pose proof (node_nodes name cs N) as N1. destruct (node_manages name cs) as (t & F & Mb). apply Mb in M. destruct (target_node name cs) as [cs1 p]. cbn [fst snd] in *.
  assert (D : forall c, deref_target p (alloc c cs1) = Ok t).
  { intros c. unfold deref_target. cbn [targets alloc]. destruct N1 as (A & B & _). cbn [bare targets] in A, B. erewrite in_node_of; [reflexivity| |apply mfind_in; exact F]. now apply nodes_nodup. }
  unfold comm_new, register_comm. rewrite D. cbn [bind]. rewrite M. split; intros R.
  - apply registered_fold in R. rewrite R. eexists _, _. split; [reflexivity|]. split; [apply mfind_mset_same|]. cbn. rewrite Nat.eqb_refl. eexists. split; reflexivity.
  - destruct (fold_left (reg1 name) ops false) eqn:X; [elim R; now apply registered_fold|reflexivity].
Qed.

(** Entries stay until they are unregistered. *)
Definition present (name : string) (cs : comms) : Prop := mfind name (targets cs) <> None.
Lemma present_step pol o name cs cs' : cstep pol o cs = Ok cs' -> nodes_ok cs -> o <> CUnregTarget name -> present name cs -> present name cs'.
Proof.
  intros H N X M. unfold present in *. destruct o as [p id|a|a id|d s|d s id|a|a h|a h|id|n|n cb|n];
    try (apply kept_targets in H as [H1 H2]; [|exact I]; rewrite H1; exact M); cbn in H; injection H as <-.
  - destruct (String.eqb_spec n name) as [->|Y]; [destruct (node_manages name cs) as (t & -> & _); discriminate|now rewrite node_other by congruence].
  - unfold register_comm_target. pose proof (node_other n name cs) as O. destruct (target_node n cs) as [cs1 k]. cbn [fst targets set_targets] in *.
    rewrite mfind_mset. destruct (String.eqb_spec name n) as [->|Y]; [discriminate|now rewrite O by congruence].
  - destruct N as (A & _). unfold unregister_comm_target. cbn [targets set_targets bare] in *. rewrite mfind_mdel by exact A. destruct (String.eqb_spec name n) as [->|Y]; [congruence|exact M].
Qed.
Lemma present_steps pol P ops name : forall cs cs', csteps pol P ops cs cs' -> nodes_ok cs -> ~ In (CUnregTarget name) ops -> present name cs -> present name cs'.
Proof.
  induction ops as [|o ops IH]; intros cs cs' H N X M; inversion H; subst; auto.
  match goal with S : cstep _ _ _ = Ok ?c |- _ => apply (IH c); auto; [eapply (manages_step _ _ name (match mfind name (targets cs) with Some (_, t) => t_manager t | None => false end) _ _ S N); unfold manages; destruct (mfind name (targets cs)) as [[]|]; reflexivity
    |intros Z; apply X; now right|eapply present_step; eauto; intros ->; apply X; now left] end.
Qed.
Lemma csteps_app_inv pol P l1 l2 : forall cs cs', csteps pol P (l1 ++ l2)%list cs cs' -> exists c, csteps pol P l1 cs c /\ csteps pol P l2 c cs'.
Proof.
  induction l1 as [|o l1 IH]; cbn; intros cs cs' H; [exists cs; split; [constructor|exact H]|]. inversion H; subst.
  match goal with S : csteps _ _ (_ ++ _)%list _ _ |- _ => apply IH in S as (c & A & B) end. exists c. split; [econstructor; eauto|exact B].
Qed.
Lemma looked_up_present pol P ops name cs : csteps pol P ops no_comms cs -> looked_up name ops -> present name cs.
Proof.
  intros H (b & a & -> & X). apply csteps_app_inv in H as (c & A & B). destruct (manages_steps pol P b name false _ _ A nodes_init eq_refl) as [N _]. inversion B; subst.
  match goal with S : cstep _ _ _ = Ok ?c1, T : csteps _ _ a _ _ |- _ => cbn in S; injection S as <-; eapply (present_steps pol P a name _ _ T); [now apply node_nodes|exact X|] end.
  unfold present. destruct (node_manages name c) as (t & -> & _). discriminate.
Qed.
Lemma present_null pol P ops name cs id : csteps pol P ops no_comms cs -> looked_up name ops -> ~ registered name ops ->
  exists p t, mfind name (targets cs) = Some (p, t) /\ exists w, comm_new p id cs = UB w.
Proof.
  intros H L R. pose proof (looked_up_present _ _ _ _ _ H L) as M. pose proof (create_iff pol P ops cs name id H) as C. unfold present, target_node in *.
  destruct (mfind name (targets cs)) as [[p t]|]; [|congruence]. exists p, t. split; [reflexivity|]. destruct C as [_ C]. specialize (C R). destruct (comm_new p id cs); try discriminate. eauto.
Qed.
