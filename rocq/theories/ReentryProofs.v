(** The kernel of [Reentry] is that of [Kernel], cut where a running function is destroyed. *)
From Verif Require Import Base BaseFacts Json JsonText Auth Message History Comm Tree Kernel Reentry ReentrySpec.

Section Cut.
  Context {Op : Type} {Ar : Op -> Type}.
  (** [t'] is [t] with some subtrees replaced by the undefined behaviour; [exact]: with none. *)
  Inductive cut {A} (exact : bool) : tree Ar A -> tree Ar A -> Prop :=
  | C_here t : exact = false -> cut exact (Stuck destroyed_running) t
  | C_ret a : cut exact (Ret a) (Ret a)
  | C_throw e : cut exact (Throw e) (Throw e)
  | C_stuck w : cut exact (Stuck w) (Stuck w)
  | C_do o k k' : (forall r, cut exact (k r) (k' r)) -> cut exact (Do o k) (Do o k').
  Lemma cut_refl {A} x (t : tree Ar A) : cut x t t.
  Proof. induction t; constructor; auto. Qed.
  Lemma cut_bind {A B} x (t t' : tree Ar A) (f f' : A -> tree Ar B) : cut x t' t -> (forall a, cut x (f' a) (f a)) -> cut x (tbind t' f') (tbind t f).
  Proof. intros C F. induction C; cbn; auto; constructor; auto. Qed.
  Lemma cut_catch {A} x (t t' h h' : tree Ar A) : cut x t' t -> cut x h' h -> cut x (catch_std t' h') (catch_std t h).
  Proof. intros C F. induction C; cbn; try (constructor; auto; fail). destruct (is_std e); auto. constructor. Qed.
  Lemma cut_attempt {A} x (t t' : tree Ar A) : cut x t' t -> cut x (attempt t') (attempt t).
  Proof. intros C. induction C; cbn; constructor; auto. Qed.
  Lemma cut_exec {A S} (step : forall o : Op, S -> S * Ar o) x (t t' : tree Ar A) : cut x t' t ->
    forall s, exec step t' s = exec step t s \/ (x = false /\ exists s1, exec step t' s = (s1, UB destroyed_running)).
  Proof.
    intros C. induction C; intros s; cbn; auto.
    - right. eauto.
    - destruct (step o s). auto.
  Qed.
End Cut.

Section Same.
  Context {U : Type} (E : env U) (x : bool).
  Lemma slot_eqb_eq y z : slot_eqb y z = true <-> y = z.
  Proof. destruct y, z; cbn; rewrite ?Nat.eqb_eq, ?String.eqb_eq; split; intros H; try discriminate; try congruence; auto. Qed.
  Lemma runs_in_in P y : runs_in P y = true <-> List.In y P.
  Proof. unfold runs_in. rewrite existsb_exists. split; [intros (z & I & H); apply slot_eqb_eq in H; congruence|]. intros I. exists y. split; auto. now apply slot_eqb_eq. Qed.
  Lemma touches_leaves P (o : uop0 U) : leaves0 P o -> touches P o = false.
  Proof.
    intros L. destruct (touches P o) eqn:T; auto. exfalso.
    assert (exists y, List.In y P /\ destroys o y) as (y & I & D); [|exact (L y I D)].
    unfold touches in T. destruct o; cbn in T; try discriminate T;
      repeat match type of T with (_ || _)%bool = true => apply orb_true_iff in T as [T|T] end; apply runs_in_in in T; eexists; (split; [exact T|cbn; eauto 8]).
  Qed.
  Lemma leaves_touches P (o : uop0 U) : touches P o = false -> leaves0 P o.
  Proof.
    intros T y I D. apply runs_in_in in I. destruct y; cbn in D;
      repeat match type of D with _ \/ _ => destruct D as [D|D] | exists _, _ => destruct D as (? & D) end; subst o; cbn in T;
      rewrite I in T; rewrite ?orb_true_r, ?orb_true_l in T; cbn in T; rewrite ?orb_true_r in T; discriminate T.
  Qed.
  Definition plain0 (P : list slot) {A} (t : ucode0 U A) : Prop := always (fun o => touches P o = false) t.
  Definition plain (P : list slot) {A} (t : ucode U A) : Prop := always (fun o => touches1 P o = false) t.
  Lemma leaves_plain0 {A} P (t : ucode0 U A) : always (leaves0 P) t -> plain0 P t.
  Proof. apply always_impl. intros o. apply touches_leaves. Qed.
  Lemma leaves_plain {A} P (t : ucode U A) : always (leaves P) t -> plain P t.
  Proof. apply always_impl. intros o L. destruct o; auto. cbn. apply touches_leaves. now apply L. Qed.
  Lemma guard0_cut {A} P (t : ucode0 U A) : (x = true -> plain0 P t) -> cut x (guard0 P t) t.
  Proof.
    induction t as [a|e|w|o k IH]; cbn; intros H; try constructor. destruct (touches P o) eqn:T; constructor.
    - destruct x; auto. destruct (H eq_refl). congruence.
    - intros r. apply IH. intros X. apply (H X).
  Qed.
  Lemma guard_cut {A} P (t : ucode U A) : (x = true -> plain P t) -> cut x (guard P t) t.
  Proof.
    induction t as [a|e|w|o k IH]; cbn; intros H; try constructor. destruct (touches1 P o) eqn:T; constructor.
    - destruct x; auto. destruct (H eq_refl). congruence.
    - intros r. apply IH. intros X. apply (H X).
  Qed.
  Hypothesis Hm : x = true -> mild E.
  Lemma plain_less n v P : (List.length P <= 1) -> x = true -> plain0 (SInput :: P) (e_input E n v).
  Proof.
    intros L X. destruct (Hm X) as (_ & _ & H). destruct P as [|s [|]]; cbn in L; try lia.
    - apply leaves_plain0. eapply always_impl; [|exact (H SInput n v)]. intros o Lo y [<-|[]]. apply Lo. cbn. auto.
    - apply leaves_plain0, H.
  Qed.

  Section Amid.
  Context (P : list slot) (HP : List.length P <= 1).
  Notation E1 := (amid E P).
  Lemma cut_api0 o : cut x (api0 E1 o) (api0 E o).
  Proof. exact (cut_refl x (api0 E o)). Qed.
  Lemma cut_embed0 {A} (t t' : ucode0 U A) : cut x t' t -> cut x (embed0 E1 t') (embed0 E t).
  Proof. intros C. induction C; cbn [embed0]; try (constructor; auto; fail). apply cut_bind; auto. apply cut_attempt, cut_api0. Qed.
  Lemma cut_stdin w : cut x (dispatch_stdin E1 w) (dispatch_stdin E w).
  Proof.
    unfold dispatch_stdin. apply cut_catch; [|apply cut_refl]. apply cut_bind; [apply cut_refl|intros m]. apply cut_bind; [apply cut_refl|intros _].
    apply cut_bind; [apply cut_refl|intros v]. unfold input_reply. apply cut_bind; [apply cut_refl|intros [[|n]|]]; try apply cut_refl.
    apply cut_bind; [apply cut_refl|intros _]. apply cut_embed0. cbn [amid e_input]. apply guard0_cut. intros X. now apply plain_less.
  Qed.
  Lemma cut_input p b : cut x (input_request E1 p b) (input_request E p b).
  Proof.
    unfold input_request, send_stdin. apply cut_bind; [apply cut_refl|intros ids]. apply cut_bind; [apply cut_refl|intros h]. apply cut_bind; [apply cut_refl|intros ph].
    cbv zeta. apply cut_bind; [apply cut_refl|intros _]. apply cut_bind; [apply cut_refl|intros w]. apply cut_bind; [apply cut_refl|intros _].
    apply cut_bind; [apply cut_refl|intros n]. apply cut_stdin.
  Qed.
  Lemma cut_api1 o : cut x (api1 E1 o) (api1 E o).
  Proof.
    destruct o; cbn [api1]; [apply cut_api0|apply cut_input|]. unfold blocking_input_request. apply cut_bind; [apply cut_refl|intros _]. apply cut_bind; [apply cut_refl|intros _].
    apply cut_bind; [apply cut_attempt, cut_input|intros r]. apply cut_refl.
  Qed.
  Lemma cut_embed {A} (t t' : ucode U A) : cut x t' t -> cut x (embed E1 t') (embed E t).
  Proof. intros C. induction C; cbn [embed]; try (constructor; auto; fail). apply cut_bind; auto. apply cut_attempt, cut_api1. Qed.
  End Amid.

  Notation E0 := (amid E []).
  Lemma cut_interp r : cut x (interp E0 r) (interp E r).
  Proof. unfold interp. apply cut_bind; [apply cut_refl|intros _]. apply cut_embed; [cbn; lia|apply cut_refl]. Qed.
  Lemma cut_internal w : cut x (dispatch_internal E0 w) (dispatch_internal E w).
  Proof. unfold dispatch_internal. do 2 (apply cut_bind; [apply cut_refl|intros ?]). apply cut_bind; [apply cut_interp|intros ?]. apply cut_refl. Qed.
  Lemma cut_embed2 {A} (t : ucode2 U A) : cut x (embed2 E0 t) (embed2 E t).
  Proof.
    induction t as [a|e|w|o k IH]; cbn [embed2]; try constructor. apply cut_bind; auto. apply cut_attempt. destruct o as [o|j]; cbn [api2]; [apply cut_api1; cbn; lia|].
    unfold send_to_shell. apply cut_bind; [apply cut_refl|intros ?]. apply cut_bind; [|intros ?; apply cut_refl].
    change (e_split E0) with (e_split E). destruct (e_split E); [apply cut_refl|apply cut_internal].
  Qed.
  Ltac same := apply cut_bind; [apply cut_refl|intros ?].
  Lemma cut_handler ty m c : ty <> "comm_open" -> ty <> "comm_close" -> ty <> "comm_msg" ->
    match mfind ty (handlers E0), mfind ty (handlers E) with
    | Some h, Some h' => cut x (h m c) (h' m c)
    | None, None => True
    | _, _ => False
    end.
  Proof.
    intros N1 N2 N3. unfold handlers. cbn [mfind].
    repeat match goal with |- context [String.eqb ty ?y] => destruct (String.eqb_spec ty y) end; auto; try contradiction.
    - unfold execute_request. apply cut_catch; [|apply cut_refl]. cbv zeta. repeat (apply cut_bind; [apply cut_refl|intros ?]).
      apply cut_bind; [|intros ?; apply cut_refl]. unfold interp_execute. do 2 same. apply cut_bind; [apply cut_interp|intros ?]. apply cut_refl.
    - unfold complete_request. cbv zeta. repeat same. apply cut_bind; [apply cut_interp|intros ?]. apply cut_refl.
    - unfold inspect_request. cbv zeta. repeat same. apply cut_bind; [apply cut_interp|intros ?]. apply cut_refl.
    - apply cut_refl.
    - unfold is_complete_request. cbv zeta. repeat same. apply cut_bind; [apply cut_interp|intros ?]. apply cut_refl.
    - apply cut_refl.
    - unfold kernel_info_request. apply cut_bind; [apply cut_interp|intros ?]. apply cut_refl.
    - unfold shutdown_request. same. apply cut_bind; [apply cut_interp|intros ?]. apply cut_refl.
    - apply cut_refl.
    - unfold debug_request. change (e_debugger E0) with (e_debugger E). destruct (e_debugger E); [|apply cut_refl]. cbv zeta. same. apply cut_bind; [apply cut_embed2|intros ?]. apply cut_refl.
  Qed.
  Lemma cut_run_handler s h m : (exists a, s = SMessage a \/ s = SClose a) -> cut x (run_handler_r E s h m) (run_handler E h m).
  Proof.
    intros (a & S). destruct h as [n|]; cbn [run_handler_r run_handler]; [|apply cut_refl]. same. apply cut_embed; [cbn; lia|]. apply guard_cut. intros X. destruct (Hm X) as (H & _).
    destruct (H a n m), S as [->| ->]; now apply leaves_plain.
  Qed.
  Lemma cut_handle ty m c : cut x (handle_r E ty m c) (handle E ty m c).
  Proof.
    unfold handle_r, handle. cbv zeta.
    destruct (String.eqb_spec ty "comm_open") as [->|N1].
    { cbn [mfind handlers]. apply cut_catch; [|apply cut_refl]. unfold comm_open_r, comm_open. cbv zeta.
      destruct (let* j := jget "target_name" (m_content (m_base m)) in get_string j) as [name| |] eqn:Nm; cbn [of_res tbind]; try apply cut_refl. same.
      match goal with |- context [match ?y with Some _ => _ | None => _ end] => destruct y as [[p t]|] end; [|apply cut_refl]. do 2 same.
      apply cut_bind; [|intros ?; apply cut_refl]. apply cut_attempt. destruct (t_callback t) as [n|]; cbn [run_callback_r run_callback]; [|apply cut_refl]. same.
      apply cut_embed; [cbn; lia|]. apply guard_cut. intros X. destruct (Hm X) as (_ & H & _). apply leaves_plain, H. unfold jget in Nm. unfold jfield. destruct (m_content (m_base m)); try discriminate Nm. destruct (mfind "target_name" m0) as [[]|]; try discriminate Nm. cbn in Nm. congruence. }
    destruct (String.eqb_spec ty "comm_close") as [->|N2].
    { cbn [mfind handlers]. apply cut_catch; [|apply cut_refl]. unfold comm_close_r, comm_close. do 2 same.
      match goal with |- context [match ?y with Some _ => _ | None => _ end] => destruct y as [adr|] end; [|apply cut_refl]. same. apply cut_bind; [apply cut_run_handler; eauto|intros ?; apply cut_refl]. }
    destruct (String.eqb_spec ty "comm_msg") as [->|N3].
    { cbn [mfind handlers]. apply cut_catch; [|apply cut_refl]. unfold comm_msg_r, comm_msg. do 2 same.
      match goal with |- context [match ?y with Some _ => _ | None => _ end] => destruct y as [adr|] end; [|apply cut_refl]. same. apply cut_run_handler; eauto. }
    pose proof (cut_handler ty m c N1 N2 N3) as H. destruct (mfind ty (handlers E0)), (mfind ty (handlers E)); try contradiction; [|apply cut_refl].
    apply cut_catch; [exact H|apply cut_refl].
  Qed.
  Lemma cut_dispatch w c : cut x (dispatch_r E w c) (dispatch E w c).
  Proof.
    unfold dispatch_r, dispatch. apply cut_bind; [apply cut_refl|intros [m|]; [|apply cut_refl]]. same. cbv zeta. do 3 same. apply cut_bind; [apply cut_handle|intros ?]. apply cut_refl.
  Qed.
  Lemma cut_start : cut x (kernel_start_r E) (kernel_start E).
  Proof. unfold kernel_start_r, kernel_start. apply cut_bind; [apply cut_embed; [cbn; lia|apply cut_refl]|intros ?]. apply cut_refl. Qed.
End Same.
