(** Execution lemmas of the kernel model and the frame of user code. *)
From Verif Require Import Base BaseFacts Json JsonText Utf8 Utf8Proofs JsonTextProofs Auth Message MessageProofs WireSpec History Comm Tree Kernel KernelSpec.

(** ** Serialization never fails in an unexpected way *)
Lemma base_serialize_cases c a h b :
  (exists w, base_serialize c a h b = Ok w) \/ base_serialize c a h b = Exn type_error_316.
Proof.
  unfold base_serialize, dump.
  destruct (dump_opt h (m_header b)); cbn; auto. destruct (dump_opt h (m_parent_header b)); cbn; auto.
  destruct (dump_opt h (m_metadata b)); cbn; auto. destruct (dump_opt h (m_content b)); cbn; eauto.
Qed.
Lemma serialize_cases c a h m : (exists w, serialize c a h m = Ok w) \/ serialize c a h m = Exn type_error_316.
Proof. unfold serialize. destruct (base_serialize_cases c a h (m_base m)) as [[w ->]| ->]; cbn; eauto. Qed.
Lemma pub_serialize_cases c a h m : (exists w, pub_serialize c a h m = Ok w) \/ pub_serialize c a h m = Exn type_error_316.
Proof. unfold pub_serialize. destruct (base_serialize_cases c a h (m_pbase m)) as [[w ->]| ->]; cbn; eauto. Qed.
Lemma base_serialize_valid c a h b : Forall utf8_json (base_parts b) -> exists w, base_serialize c a h b = Ok w.
Proof.
  intros H. apply (base_serialize_strict_ok c a) in H as [w H]. exists w. revert H. unfold base_serialize.
  destruct (dump EStrict (m_header b)) eqn:E1; try discriminate.
  destruct (dump EStrict (m_parent_header b)) eqn:E2; try discriminate.
  destruct (dump EStrict (m_metadata b)) eqn:E3; try discriminate.
  destruct (dump EStrict (m_content b)) eqn:E4; try discriminate.
  apply (dump_same h) in E1, E2, E3, E4. now rewrite E1, E2, E3, E4.
Qed.
Lemma serialize_valid c a h m : Forall utf8_json (base_parts (m_base m)) -> exists w, serialize c a h m = Ok w.
Proof. intros H. unfold serialize. destruct (base_serialize_valid c a h _ H) as [w ->]. cbn; eauto. Qed.
Lemma pub_serialize_valid c a h m : Forall utf8_json (base_parts (m_pbase m)) -> exists w, pub_serialize c a h m = Ok w.
Proof. intros H. unfold pub_serialize. destruct (base_serialize_valid c a h _ H) as [w ->]. cbn; eauto. Qed.

(** ** UTF-8 of the messages the kernel builds *)
Lemma utf8_obj m : Forall (fun p => utf8_text (fst p) /\ utf8_json (snd p)) m -> utf8_json (JObj m).
Proof.
  intros H. apply jvalid_utf8. rewrite jvalid_obj. apply forallb_forall. intros [k x] Hin.
  rewrite Forall_forall in H. destruct (H _ Hin) as [H1 H2]. cbn [fst snd] in *. apply is_utf8_valid_spec in H1. apply jvalid_utf8 in H2. now rewrite H1, H2.
Qed.
Lemma utf8_str s : utf8_text s -> utf8_json (JStr s).
Proof. intros H. apply jvalid_utf8. cbn [jvalid]. now apply is_utf8_valid_spec. Qed.
Lemma utf8_lit s : is_utf8_valid s = true -> utf8_text s.
Proof. apply is_utf8_valid_spec. Qed.
Lemma utf8_empty : utf8_json (JObj []).
Proof. apply utf8_obj. constructor. Qed.
Lemma utf8_header i d t u s : utf8_text i -> utf8_text d -> utf8_text t -> utf8_text u -> utf8_text s -> utf8_json (make_header i d t u s).
Proof.
  intros. rewrite make_header_sorted. apply utf8_obj.
  repeat constructor; cbn [fst snd]; auto using utf8_str; try (apply utf8_lit; reflexivity).
  apply utf8_str, utf8_lit. reflexivity.
Qed.
Lemma accepted_utf8 c a w m : deserialize c a w = Ok m -> Forall utf8_json (base_parts (m_base m)).
Proof.
  intros H. apply deserialize_ok_json in H as [H _]. unfold base_ok_json in H.
  assert (X : forall j, json_ok j = true -> utf8_json j).
  { intros j Hj. apply jvalid_utf8. apply json_ok_spec in Hj. apply Hj. }
  apply andb_true_iff in H as [H H4]. apply andb_true_iff in H as [H H3]. apply andb_true_iff in H as [H1 H2].
  unfold base_parts. apply X in H1, H2, H3, H4. apply Forall_cons; auto.
Qed.

(** ** Running *)
Section Run.
  Context {U : Type}.
  Implicit Types (s : kstate U).

  Lemma run_bind {A B} (p : kprog U A) (f : A -> kprog U B) s :
    run (tbind p f) s =
      match run p s with
      | (s', Ok a) => run (f a) s'
      | (s', Exn e) => (s', Exn e)
      | (s', UB w) => (s', UB w)
      end.
  Proof. apply exec_bind. Qed.
  Lemma run_catch {A} (p h : kprog U A) s :
    run (catch_std p h) s = match run p s with (s', Exn (Std _)) => run h s' | r => r end.
  Proof. apply exec_catch. Qed.
  Lemma run_attempt {A} (p : kprog U A) s :
    run (attempt p) s =
      match run p s with
      | (s', Ok a) => (s', Ok (inl a))
      | (s', Exn e) => (s', Ok (inr e))
      | (s', UB w) => (s', UB w)
      end.
  Proof. apply exec_attempt. Qed.
  Lemma run_res {A} (r : res A) s : run (of_res r : kprog U A) s = (s, r).
  Proof. apply exec_of_res. Qed.
  Lemma run_ret {A} (a : A) s : run (Ret a : kprog U A) s = (s, Ok a).
  Proof. reflexivity. Qed.
  Lemma run_throw {A} e s : run (Throw e : kprog U A) s = (s, Exn e).
  Proof. reflexivity. Qed.
  Lemma run_stuck {A} w s : run (Stuck w : kprog U A) s = (s, UB w).
  Proof. reflexivity. Qed.
  Lemma run_kdo (o : kop U) s : run (kdo o) s = (fst (kstep o s), Ok (snd (kstep o s))).
  Proof. unfold run, kdo. rewrite exec_perform. now destruct (kstep o s). Qed.

  (** ** Programs that keep a relation between the states *)
  Definition keeps (R : kstate U -> kstate U -> Prop) {A} (p : kprog U A) : Prop :=
    forall s, R s (fst (run p s)).
  Section Keeps.
    Context (R : kstate U -> kstate U -> Prop).
    Hypothesis Rrefl : forall s, R s s.
    Hypothesis Rtrans : forall s1 s2 s3, R s1 s2 -> R s2 s3 -> R s1 s3.
    Lemma keeps_ret {A} (a : A) : keeps R (Ret a).
    Proof. intros s. apply Rrefl. Qed.
    Lemma keeps_throw {A} e : keeps R (Throw e : kprog U A).
    Proof. intros s. apply Rrefl. Qed.
    Lemma keeps_stuck {A} w : keeps R (Stuck w : kprog U A).
    Proof. intros s. apply Rrefl. Qed.
    Lemma keeps_res {A} (r : res A) : keeps R (of_res r).
    Proof. intros s. rewrite run_res. apply Rrefl. Qed.
    Lemma keeps_bind {A B} (p : kprog U A) (f : A -> kprog U B) :
      keeps R p -> (forall a, keeps R (f a)) -> keeps R (tbind p f).
    Proof.
      intros Hp Hf s. rewrite run_bind. specialize (Hp s). destruct (run p s) as [s' [a|e|w]]; cbn [fst] in *; auto.
      eapply Rtrans; [apply Hp | apply Hf].
    Qed.
    Lemma keeps_catch {A} (p h : kprog U A) : keeps R p -> keeps R h -> keeps R (catch_std p h).
    Proof.
      intros Hp Hh s. rewrite run_catch. specialize (Hp s). destruct (run p s) as [s' [a|[]|w]]; cbn [fst] in *; auto.
      eapply Rtrans; [apply Hp | apply Hh].
    Qed.
    Lemma keeps_attempt {A} (p : kprog U A) : keeps R p -> keeps R (attempt p).
    Proof. intros Hp s. rewrite run_attempt. specialize (Hp s). destruct (run p s) as [s' [a|e|w]]; auto. Qed.
    Lemma keeps_kdo o : (forall s, R s (fst (kstep o s))) -> keeps R (kdo o).
    Proof. intros H s. rewrite run_kdo. apply H. Qed.
    Lemma keeps_embed0 E (P : uop0 U -> Prop) {A} (t : ucode0 U A) :
      (forall o, P o -> keeps R (api0 E o)) -> always P t -> keeps R (embed0 E t).
    Proof.
      intros Hapi. induction t as [a|e|w|o k IH]; cbn [always embed0]; intros H; auto using keeps_ret, keeps_throw, keeps_stuck.
      destruct H as [Ho Hk]. apply keeps_bind; auto using keeps_attempt.
    Qed.
    Lemma keeps_embed E (P : uop1 U -> Prop) {A} (t : ucode U A) :
      (forall o, P o -> keeps R (api1 E o)) -> always P t -> keeps R (embed E t).
    Proof.
      intros Hapi. induction t as [a|e|w|o k IH]; cbn [always embed]; intros H; auto using keeps_ret, keeps_throw, keeps_stuck.
      destruct H as [Ho Hk]. apply keeps_bind; auto using keeps_attempt.
    Qed.
    Lemma keeps_embed2 E (P : uop2 U -> Prop) {A} (t : ucode2 U A) :
      (forall o, P o -> keeps R (api2 E o)) -> always P t -> keeps R (embed2 E t).
    Proof.
      intros Hapi. induction t as [a|e|w|o k IH]; cbn [always embed2]; intros H; auto using keeps_ret, keeps_throw, keeps_stuck.
      destruct H as [Ho Hk]. apply keeps_bind; auto using keeps_attempt.
    Qed.
  End Keeps.
End Run.
