(** The split servers answer requests while another thread is at work. *)
From Verif Require Import Base BaseFacts Json JsonText Utf8 Utf8Proofs JsonTextProofs Auth Message MessageProofs WireSpec History HistoryProofs LoggerProofs Comm Tree Kernel KernelSpec KernelProofs KernelRun KernelHandlers KernelExec KernelDispatch KernelLemmas KernelExecProps KernelReplies
  AnsweredSpec Answered Server Split SplitSpec Threads SplitProofs SplitCalls SequentialSpec SequentialProofs SplitStreamSpec SplitStream SplitIds SplitAnsweredSpec.
Local Open Scope Z_scope.

(** ** What programs do to the shared state *)
(** Operations of user code. *)
Definition user_op {U} (o : kop U) : Prop :=
  match o with
  | KEmit (ESend _ _ _) | KShellPop | KShellLen | KCount | KSetCount _ | KSetPid _ _ | KSetPhdr _ _ | KSetHistory _ => False
  | _ => True
  end.
(** Operations of the handlers other than that of execute_request. *)
Definition keeping {U} (o : kop U) : Prop := match o with KSetCount _ | KSetPhdr _ _ | KSetHistory _ => False | _ => True end.
Section Always.
  Context {U : Type} (E : env U).
  Notation user := (always (user_op (U := U))).
  Ltac np := repeat match goal with
    | |- always _ (tbind _ _) => apply always_bind; [|intros ?]
    | |- always _ (catch_std _ _) => apply always_catch
    | |- always _ (attempt _) => apply always_attempt
    | |- always _ (of_res _) => apply always_of_res
    | |- always _ (kdo _) => split; [exact I | intros ?; exact I]
    | |- always _ (perform _) => split; [exact I | intros ?; exact I]
    | |- always _ (Ret _) => exact I
    | |- always _ (Throw _) => exact I
    | |- always _ (Stuck _) => exact I
    | |- always _ (match ?x with _ => _ end) => destruct x
    | _ => progress unfold log, emit, new_guid, now, new_header, get_metadata, with_comms, look_comms
    end.
  Lemma u_publish ty md ct b c : user (publish_message E ty md ct b c).
  Proof. unfold publish_message. cbv zeta. np. Qed.
  Lemma u_target p ty md ct b : user (target_publish E p ty md ct b).
  Proof. unfold target_publish. np. apply u_publish. Qed.
  Lemma u_api0 o : user (api0 E o).
  Proof.
    destruct o; cbn [api0]; unfold publish_execution_input, comm_open_msg, comm_close_msg, comm_send_msg; np; auto using u_publish, u_target.
  Qed.
  Lemma u_embed0 {A} (t : ucode0 U A) : user (embed0 E t).
  Proof. induction t; cbn [embed0]; try exact I. apply always_bind; [apply always_attempt, u_api0|auto]. Qed.
  Lemma u_stdin w : user (dispatch_stdin E w).
  Proof. unfold dispatch_stdin, input_reply. np. apply u_embed0. Qed.
  Lemma u_input p b : user (input_request E p b).
  Proof. unfold input_request, send_stdin. cbv zeta. np. apply u_stdin. Qed.
  Lemma u_api1 o : user (api1 E o).
  Proof. destruct o; cbn [api1]; [apply u_api0|apply u_input|]. unfold blocking_input_request. np. apply u_input. Qed.
  Lemma u_embed {A} (t : ucode U A) : user (embed E t).
  Proof. induction t; cbn [embed]; try exact I. apply always_bind; [apply always_attempt, u_api1|auto]. Qed.
  Lemma u_interp r : user (interp E r).
  Proof. unfold interp. np. apply u_embed. Qed.
  Lemma u_internal w : user (dispatch_internal E w).
  Proof. unfold dispatch_internal. np. apply u_interp. Qed.
  Lemma u_api2 o : user (api2 E o).
  Proof. destruct o; cbn [api2]; [apply u_api1|]. unfold send_to_shell. np. apply u_internal. Qed.
  Lemma u_embed2 {A} (t : ucode2 U A) : user (embed2 E t).
  Proof. induction t; cbn [embed2]; try exact I. apply always_bind; [apply always_attempt, u_api2|auto]. Qed.
  Notation keep := (always (keeping (U := U))).
  Lemma user_keep {A} (p : kprog U A) : user p -> keep p.
  Proof. apply always_impl. intros []; cbn; auto. Qed.
  Lemma k_send ids ty ph md ct c : keep (send_reply_to E ids ty ph md ct c).
  Proof. unfold send_reply_to. cbv zeta. np. Qed.
  Lemma k_reply ty md ct c : keep (send_reply E ty md ct c).
  Proof. unfold send_reply. np. apply k_send. Qed.
  Lemma k_abort_request w : keep (abort_request E w).
  Proof. unfold abort_request. cbv zeta. np. apply k_send. Qed.
  Lemma k_loop n : keep (abort_loop E n).
  Proof. induction n as [|n IH]; cbn [abort_loop]; [exact I|]. np; [apply k_abort_request|exact IH]. Qed.
  Lemma k_handler ty h m c : mfind ty (handlers E) = Some h -> ty <> "execute_request" -> keep (h m c).
  Proof.
    unfold handlers. cbn [mfind]. intros H Hne.
    repeat match type of H with (if ?b then _ else _) = _ => destruct b eqn:?; [injection H as <-|] end; try discriminate.
    - apply String.eqb_eq in Heqb. congruence.
    - unfold complete_request. np; auto using user_keep, u_interp, k_reply.
    - unfold inspect_request. np; auto using user_keep, u_interp, k_reply.
    - unfold history_request. np; auto using user_keep, u_interp, k_reply.
    - unfold is_complete_request. np; auto using user_keep, u_interp, k_reply.
    - unfold comm_info_request. np; auto using user_keep, u_interp, k_reply.
    - unfold comm_open, run_callback. np; auto using user_keep, u_embed.
    - unfold comm_close, run_handler. np; auto using user_keep, u_embed.
    - unfold comm_msg, run_handler. np; auto using user_keep, u_embed.
    - unfold kernel_info_request. np; auto using user_keep, u_interp, k_reply.
    - unfold shutdown_request. cbv zeta. np; auto using user_keep, u_interp, k_reply, u_publish.
    - unfold interrupt_request. np; auto using user_keep, u_interp, k_reply, u_publish.
    - unfold debug_request. cbv zeta. np; auto using user_keep, u_embed2, k_reply.
  Qed.

  (** *** Stored headers and history stay valid UTF-8 *)
  Definition lawful (o : kop U) : Prop :=
    match o with KSetPhdr _ h => utf8_json h | KSetHistory h => Forall entry_utf8 h | _ => True end.
  Fixpoint tame {A} (p : kprog U A) : Prop :=
    match p with Do o k => lawful o /\ forall x, found E o x -> tame (k x) | _ => True end.
  Lemma keep_tame {A} (p : kprog U A) : keep p -> tame p.
  Proof. induction p as [a|e|w|o k IH]; cbn; auto. intros [Ho H]. split; auto. destruct o; cbn in *; auto; contradiction. Qed.
  Lemma tame_bind {A B} (p : kprog U A) (f : A -> kprog U B) : tame p -> (forall a, tame (f a)) -> tame (tbind p f).
  Proof. intros H Hf. induction p as [a|e|w|o k IH]; cbn in *; auto. destruct H; split; auto. Qed.
  Lemma tame_catch {A} (p h : kprog U A) : tame p -> tame h -> tame (catch_std p h).
  Proof. intros H Hf. induction p as [a|e|w|o k IH]; cbn in *; auto; [destruct (is_std e); cbn; auto|]. destruct H; split; auto. Qed.
  Lemma tame_res {A B} (r : res A) (f : A -> kprog U B) : (forall a, r = Ok a -> tame (f a)) -> tame (tbind (of_res r) f).
  Proof. destruct r; cbn; auto. Qed.
  Lemma store_utf8 n code h : utf8_text code -> Forall entry_utf8 h -> Forall entry_utf8 (store_inputs 0 n code "" h).
  Proof.
    intros Hc Hh. unfold store_inputs. apply Forall_app. split; auto. constructor; auto.
    split; [apply dec_utf8|]. split; [apply dec_utf8|]. split; [exact Hc|]. apply utf8_lit; reflexivity.
  Qed.
  Lemma value_utf8 k j v : utf8_json j -> value_string k "" j = Ok v -> utf8_text v.
  Proof.
    intros Hj. unfold value_string, jvalue. destruct j; try discriminate. destruct (mfind k m) as [x|] eqn:Hm.
    - destruct x; try discriminate. cbn. intros [= <-]. apply Hj. eapply si_member; [now apply mfind_in in Hm; exact Hm|constructor].
    - intros [= <-]. apply utf8_lit; reflexivity.
  Qed.
  Lemma tame_kdo o : lawful o -> tame (kdo o).
  Proof. intros H. split; auto. intros; exact I. Qed.
  Lemma tame_do {A} o (f : kans o -> kprog U A) : lawful o -> (forall x, found E o x -> tame (f x)) -> tame (tbind (kdo o) f).
  Proof. intros H Hf. split; auto. Qed.
  Lemma tame_interp_execute code silent st ue ai : tame (interp_execute E code silent st ue ai).
  Proof.
    unfold interp_execute. apply tame_bind; [destruct silent; [exact I|]|intros _].
    - apply tame_do; [exact I|]. intros n _. destruct (n =? int_max)%Z; [exact I|]. apply tame_do; [exact I|]. intros _ _. apply keep_tame, user_keep, u_publish.
    - apply tame_do; [exact I|]. intros n _. apply tame_bind; [apply keep_tame, user_keep, u_interp|]. intros j. apply tame_do; [exact I|]. intros n' _. apply keep_tame, always_of_res.
  Qed.
  Lemma tame_execute m c : utf8_json (m_content (m_base m)) -> tame (execute_request E m c).
  Proof.
    intros Hu. unfold execute_request. cbv zeta. apply tame_catch; [|exact I].
    apply tame_res. intros code Hcode. do 6 (apply tame_res; intros ? _). apply tame_bind; [apply keep_tame; np|intros md].
    apply tame_bind; [apply tame_interp_execute|intros rep]. apply tame_res; intros status _. apply tame_bind; [apply keep_tame, k_reply|intros _].
    apply tame_bind; [|intros _].
    - destruct (_ && _); [|exact I]. apply tame_do; [exact I|]. intros h Hh. apply tame_kdo. apply store_utf8; auto. eapply value_utf8; eauto.
    - destruct (_ && _); [|exact I]. unfold abort_queue. apply tame_do; [exact I|]. intros n _. apply keep_tame, k_loop.
  Qed.
  Lemma tame_dispatch w c : tame (dispatch E w c).
  Proof.
    unfold dispatch. destruct (deserialize (e_crypto E) (e_auth E) w) as [m|e|why] eqn:Hd; cbn [of_res tbind catch_std]; [| |exact I].
    2:{ destruct (is_std e); exact I. }
    cbv zeta. unfold log. apply tame_res; intros _ _. apply tame_bind.
    { unfold set_parent. apply tame_do; [exact I|]. intros _ _. apply tame_kdo. eapply accepted_header_utf8; eauto. }
    intros _. apply tame_bind; [apply keep_tame, user_keep, u_publish|intros _]. apply tame_res; intros ty _.
    apply tame_bind; [|intros _; apply keep_tame, user_keep, u_publish].
    unfold handle. destruct (mfind ty (handlers E)) as [h|] eqn:Hf; [|exact I]. apply tame_catch; [|apply keep_tame; np].
    destruct (String.eqb_spec ty "execute_request") as [->|Hne].
    - injection Hf as <-. apply tame_execute. eapply accepted_content_utf8; eauto.
    - apply keep_tame. eapply k_handler; eauto.
  Qed.

  (** *** The execution counter *)
  (** [thrifty b kn p]: [p] increments the counter at most [b] times; [kn]: the largest value read. *)
  Definition affords (o : kop U) (b kn : Z) : Prop := match o with KSetCount z => 1 <= b /\ z <= kn + 1 | _ => True end.
  Definition left_of (o : kop U) (b : Z) : Z := match o with KSetCount _ => b - 1 | _ => b end.
  Definition knows (o : kop U) (kn : Z) : kans o -> Z := match o return kans o -> Z with KCount => fun x => Z.max kn x | _ => fun _ => kn end.
  Fixpoint thrifty {A} (b kn : Z) (p : kprog U A) {struct p} : Prop :=
    match p with Do o k => affords o b kn /\ forall x, thrifty (left_of o b) (knows o kn x) (k x) | _ => True end.
  Definition uncounted (o : kop U) : Prop := match o with KSetCount _ => False | _ => True end.
  Lemma keep_uncounted {A} (p : kprog U A) : keep p -> always uncounted p.
  Proof. apply always_impl. intros []; cbn; auto. Qed.
  Lemma thrifty_then {A B} (p : kprog U A) (f : A -> kprog U B) b : always uncounted p -> (forall kn a, thrifty b kn (f a)) -> forall kn, thrifty b kn (tbind p f).
  Proof.
    intros H Hf. induction p as [a|e|w|o k IH]; intros kn; cbn [tbind thrifty]; auto. destruct H as [Ho H].
    split; [destruct o; try exact I; contradiction|]. intros x. replace (left_of o b) with b by (destruct o; try reflexivity; contradiction). apply IH. apply H.
  Qed.
  Lemma thrifty_none {A} (p : kprog U A) b : always uncounted p -> forall kn, thrifty b kn p.
  Proof.
    intros H. induction p as [a|e|w|o k IH]; intros kn; cbn [thrifty]; auto. destruct H as [Ho H].
    split; [destruct o; try exact I; contradiction|]. intros x. replace (left_of o b) with b by (destruct o; try reflexivity; contradiction). apply IH. apply H.
  Qed.
  Lemma thrifty_bind {A B} (p : kprog U A) (f : A -> kprog U B) : (forall a, always uncounted (f a)) -> forall b kn, thrifty b kn p -> thrifty b kn (tbind p f).
  Proof.
    intros Hf. induction p as [a|e|w|o k IH]; intros b kn H; cbn [tbind]; try exact I; [now apply thrifty_none|].
    destruct H as [H1 H2]. split; auto.
  Qed.
  Lemma thrifty_catch {A} (p h : kprog U A) : always uncounted h -> forall b kn, thrifty b kn p -> thrifty b kn (catch_std p h).
  Proof.
    intros Hf. induction p as [a|e|w|o k IH]; intros b kn H; cbn [catch_std]; auto; [destruct (is_std e); [now apply thrifty_none|exact I]|].
    destruct H as [H1 H2]. split; auto.
  Qed.
  Lemma thrifty_interp_execute code silent st ue ai kn : thrifty 1 kn (interp_execute E code silent st ue ai).
  Proof.
    assert (R : forall n, always uncounted (tbind (interp E (RExecute n code silent st ue ai)) (fun reply => tbind (kdo KCount) (fun n => of_res (jset "execution_count" (JInt n) reply))))).
    { intros n. apply always_bind; [apply keep_uncounted, user_keep, u_interp|]. intros j. np. }
    unfold interp_execute. apply thrifty_bind; [intros _; apply always_bind; [np|exact R]|]. clear R.
    destruct silent; [exact I|]. unfold kdo, perform. cbn [tbind]. split; [exact I|]. intros n. destruct (n =? int_max)%Z; [exact I|]. cbn [tbind].
    split; [cbn; lia|]. intros ?. apply thrifty_none, keep_uncounted, user_keep, u_publish.
  Qed.
  Lemma thrifty_execute m c kn : thrifty 1 kn (execute_request E m c).
  Proof.
    unfold execute_request. cbv zeta. apply thrifty_catch; [exact I|].
    do 8 (apply thrifty_then; [np|]; clear kn; intros kn ?).
    apply thrifty_bind; [|apply thrifty_interp_execute]. intros rep. np; try (apply keep_uncounted, k_reply).
    unfold abort_queue. np. apply keep_uncounted, k_loop.
  Qed.
  Lemma thrifty_dispatch w c kn : thrifty 1 kn (dispatch E w c).
  Proof.
    unfold dispatch. apply thrifty_then; [np|]. intros kn1 [m|]; [|exact I]. cbv zeta.
    apply thrifty_then; [np|intros kn2 _]. apply thrifty_then; [unfold set_parent; np|intros kn3 _].
    apply thrifty_then; [apply keep_uncounted, user_keep, u_publish|intros kn4 _]. apply thrifty_then; [np|intros kn5 ty].
    apply thrifty_bind; [intros _; apply keep_uncounted, user_keep, u_publish|].
    unfold handle. destruct (mfind ty (handlers E)) as [h|] eqn:Hf; [|exact I]. apply thrifty_catch; [np|].
    destruct (String.eqb_spec ty "execute_request") as [->|Hne].
    - injection Hf as <-. apply thrifty_execute.
    - apply thrifty_none, keep_uncounted. eapply k_handler; eauto.
  Qed.
End Always.

(** ** Replies owed *)
Section Sure.
  Context {U : Type} (E : env U) (Hq : quiet E) (Hu : env_utf8 E).
  (** [all]: the replies to the messages taken by [abort_queue] are counted too; [W]: the messages taken;
      [S]: undefined behaviour is allowed. *)
  Context (all : bool) (W : frames -> Prop) (S : Prop).
  Context (HW : all = true -> forall w, W w -> abortable E w) (HS : all = false -> S).

  Definition hears (o : kop U) (x : kans o) : Prop :=
    found E o x /\
    match o return kans o -> Prop with
    | KCount => fun n => n = int_max -> S
    | KShellPop => fun x => match x with Some w => W w | None => True end
    | _ => fun _ => True
    end x.
  Definition owes (o : kop U) (d : Z) : kans o -> Z :=
    match o return kans o -> Z with
    | KEmit (ESend _ _ _) => fun _ => d - 1
    | KShellPop => fun x => match x with Some w => if all && is_accepted E w then d + 1 else d | None => d end
    | _ => fun _ => d
    end.
  Fixpoint sure {A} (d : Z) (p : kprog U A) (Q : Z -> A -> Prop) (X : Z -> Prop) {struct p} : Prop :=
    match p with
    | Ret a => Q d a
    | Throw _ => X d
    | Stuck _ => S
    | Do o k => forall x, hears o x -> sure (owes o d x) (k x) Q X
    end.
  Lemma sure_impl {A} (p : kprog U A) (Q Q' : Z -> A -> Prop) (X X' : Z -> Prop) :
    (forall d a, Q d a -> Q' d a) -> (forall d, X d -> X' d) -> forall d, sure d p Q X -> sure d p Q' X'.
  Proof. intros HQ HX. induction p as [a|e|w|o k IH]; intros d H; cbn in *; auto. Qed.
  Lemma sure_bind {A B} (p : kprog U A) (f : A -> kprog U B) Q X : forall d,
    sure d p (fun d a => sure d (f a) Q X) X -> sure d (tbind p f) Q X.
  Proof. induction p as [a|e|w|o k IH]; intros d H; cbn in *; auto. Qed.
  Lemma sure_catch {A} (p h : kprog U A) Q X : forall d,
    sure d p Q (fun d => sure d h Q X /\ X d) -> sure d (catch_std p h) Q X.
  Proof. induction p as [a|e|w|o k IH]; intros d H; cbn in *; auto. destruct (is_std e); apply H. Qed.
  Lemma sure_res {A B} (r : res A) a (f : A -> kprog U B) Q X d : r = Ok a -> sure d (f a) Q X -> sure d (tbind (of_res r) f) Q X.
  Proof. now intros ->. Qed.
  Lemma sure_settles {A} (P : A -> Prop) (p : kprog U A) (Q : Z -> A -> Prop) X d :
    settles E P p -> always user_op p -> (forall a, P a -> Q d a) -> sure d p Q X.
  Proof.
    intros H HA HQ. induction p as [a|e|w|o k IH]; cbn in *; auto; try contradiction.
    destruct HA as [Ho HA]. intros x [Hx _]. replace (owes o d x) with d; [apply IH; auto|].
    destruct o; try reflexivity; try contradiction. destruct e; try reflexivity; contradiction.
  Qed.
  Lemma settles_publish ty md ct b c : utf8_text ty -> utf8_json md -> utf8_json ct -> settles E (fun _ => True) (publish_message E ty md ct b c).
  Proof.
    intros H1 H2 H3. unfold publish_message, new_header, new_guid, now. cbn [tbind settles kdo perform]. intros n _ n' _ p Hp. unfold log. rewrite Hq. cbn [of_res tbind].
    match goal with |- context [pub_serialize _ _ _ ?m] => destruct (pub_serialize_valid (e_crypto E) (e_auth E) (e_eh E) m) as [f Hf] end.
    { unfold base_parts. cbn [m_pbase m_header m_parent_header m_metadata m_content]. destruct Hu as (U1 & U2 & U3 & U4).
      repeat apply Forall_cons; auto. now apply utf8_header. }
    rewrite Hf. cbn. auto.
  Qed.
  Lemma sure_publish ty md ct b c (Q : Z -> unit -> Prop) X d : utf8_text ty -> utf8_json md -> utf8_json ct -> Q d tt -> sure d (publish_message E ty md ct b c) Q X.
  Proof. intros H1 H2 H3 HQ. eapply sure_settles; [now apply settles_publish|apply u_publish|]. now intros [] _. Qed.
  Lemma sure_send_to ids ty ph md ct c (Q : Z -> unit -> Prop) X d :
    utf8_text ty -> utf8_json ph -> utf8_json md -> utf8_json ct -> Q (d - 1) tt -> sure d (send_reply_to E ids ty ph md ct c) Q X.
  Proof.
    intros H1 H2 H3 H4 HQ. unfold send_reply_to, new_header, new_guid, now. cbn [tbind sure kdo perform]. intros n _ n' _. unfold log. rewrite Hq. cbn [of_res tbind].
    match goal with |- context [serialize _ _ _ ?m] => destruct (serialize_valid (e_crypto E) (e_auth E) (e_eh E) m) as [f Hf] end.
    { unfold base_parts. cbn [m_base m_header m_parent_header m_metadata m_content]. destruct Hu as (U1 & U2 & U3 & U4).
      repeat apply Forall_cons; auto. now apply utf8_header. }
    rewrite Hf. cbn. now intros [] _.
  Qed.
  Lemma sure_send ty md ct c (Q : Z -> unit -> Prop) X d : utf8_text ty -> utf8_json md -> utf8_json ct -> Q (d - 1) tt -> sure d (send_reply E ty md ct c) Q X.
  Proof. intros H1 H2 H3 HQ. unfold send_reply. cbn [tbind kdo perform sure]. intros ids _ p [Hp _]. now apply sure_send_to. Qed.

  (** *** Aborted requests *)
  Definition settled (d : Z) : Prop := if all then d = 0 else d <= 0.
  Definition excused (d : Z) : Prop := all = false /\ d <= 0.
  Lemma header_type_utf8 w m ty : accepted E w m -> value_string "msg_type" "" (m_header (m_base m)) = Ok ty -> utf8_text ty.
  Proof. intros Ha H. eapply value_utf8; eauto. eapply accepted_header_utf8; eauto. Qed.
  Lemma request_reply x y : no_underscore y -> (slen y <= 7)%nat -> reply_type_of (x +++ "_" +++ y) = Ok (x +++ "_reply").
  Proof.
    intros Hy Hl. rewrite <- (sapp_nil_r "_reply"). apply reply_type_spec. exists x, y, "". rewrite sapp_nil_r. repeat split; auto.
    destruct (Nat.eq_dec (slen y) 7); [left|right; split]; auto; lia.
  Qed.
  Lemma sure_abort_request w d : W w -> settled d -> sure (if all && is_accepted E w then d + 1 else d) (abort_request E w) (fun d _ => settled d) excused.
  Proof.
    intros Hw Hd. unfold abort_request. apply sure_bind. unfold is_accepted.
    destruct (deserialize (e_crypto E) (e_auth E) w) as [m|e|u] eqn:D; cbn [of_res tbind catch_std is_ok].
    - cbn [sure]. unfold settled, excused in *. destruct all eqn:Ha; cbn [andb].
      + destruct (HW eq_refl w Hw) as [[x Hx]|(m' & x & y & Hm & Hty & Hy & Hl)]; [congruence|]. unfold accepted in Hm. assert (m' = m) as -> by congruence.
        apply typed_value in Hty. eapply sure_res; [exact Hty|]. eapply sure_res; [now apply request_reply|].
        apply sure_send_to; [|eapply accepted_header_utf8; eauto|apply utf8_empty|apply utf8_obj|lia].
        * apply utf8_app; [|apply utf8_lit; reflexivity]. eapply utf8_before with (c := "_"%char) (y := y); [reflexivity|]. eapply header_type_utf8; eauto.
        * repeat constructor; cbn [fst snd]; [apply utf8_lit; reflexivity|apply utf8_str, utf8_lit; reflexivity].
      + apply sure_bind. destruct (value_string _ _ _) as [ty|e|u]; cbn [of_res sure]; auto.
        apply sure_bind. destruct (reply_type_of ty) as [rty|e|u]; cbn [of_res sure]; auto.
        unfold send_reply_to, new_header, new_guid, now. cbn [tbind sure kdo perform]. intros n _ n' _. unfold log. rewrite Hq. cbn [of_res tbind].
        match goal with |- context [serialize _ _ _ ?m] => destruct (serialize (e_crypto E) (e_auth E) (e_eh E) m) end; cbn; auto. intros _ _. lia.
    - rewrite andb_false_r. pose proof D as D'. apply deserialize_exn_std in D' as X. destruct e; [|discriminate]. exact Hd.
    - rewrite andb_false_r. cbn. destruct all eqn:Ha; auto.
      destruct (HW eq_refl w Hw) as [[x Hx]|(m' & x & y & Hm & _)]; unfold accepted in *; congruence.
  Qed.
  Lemma sure_loop n : forall d, settled d -> sure d (abort_loop E n) (fun d _ => settled d) excused.
  Proof.
    induction n as [|n IH]; intros d Hd; cbn [abort_loop]; [exact Hd|]. cbn [kdo perform tbind sure]. intros [w|] [_ Hw]; [|exact Hd].
    apply sure_bind. cbn [owes]. eapply sure_impl; [| |apply sure_abort_request; auto]; auto.
  Qed.

  (** *** Requests *)
  Lemma settled_0 : settled (1 - 1).
  Proof. unfold settled. destruct all; reflexivity || lia. Qed.
  Lemma sure_interp {B} r P (f : json -> kprog U B) Q X d : settles E P (embed E (e_interp E r)) -> (forall j, P j -> sure d (f j) Q X) -> sure d (tbind (interp E r) f) Q X.
  Proof.
    intros H Hf. unfold interp. apply sure_bind. cbn [emit kdo perform tbind sure]. intros x _. cbn [owes]. eapply sure_settles; [exact H|apply u_embed|exact Hf].
  Qed.
  Ltac lit := apply utf8_lit; reflexivity.
  Lemma sure_code {B} m k d' v (f : string -> kprog U B) Q X d : str_field m k d' v -> sure d (f v) Q X -> sure d (tbind (of_res (value_string k d' (JObj m))) f) Q X.
  Proof. intros H. apply sure_res. now apply value_string_field. Qed.
  Lemma sure_num {B} m k d' v (f : Z -> kprog U B) Q X d : num_field m k d' v -> sure d (f v) Q X -> sure d (tbind (of_res (value_int k d' (JObj m))) f) Q X.
  Proof. intros H. apply sure_res. now apply num_field_value. Qed.
  Lemma sure_bool {B} m k d' v (f : bool -> kprog U B) Q X d : bool_field m k d' v -> sure d (f v) Q X -> sure d (tbind (of_res (value_bool k d' (JObj m))) f) Q X.
  Proof. intros H. apply sure_res. now apply value_bool_field. Qed.
  Lemma sure_metadata {B} (f : json -> kprog U B) Q X d : (forall j, utf8_json j -> sure d (f j) Q X) -> sure d (tbind (get_metadata E) f) Q X.
  Proof.
    intros Hf. unfold get_metadata, now. cbn [kdo perform tbind sure]. intros n _. apply Hf. apply utf8_obj.
    destruct Hu as (_ & _ & _ & U4). repeat constructor; cbn [fst snd]; auto using utf8_str; lit.
  Qed.
  Lemma sure_interp_execute {B} p (f : json -> kprog U B) Q X d : utf8_text (x_code p) ->
    (forall n, settles E (fun j => utf8_json j /\ exists m st, j = JObj m /\ mfind "status" m = Some (JStr st))
       (embed E (e_interp E (RExecute n (x_code p) (x_silent p) (stores p) (x_ue p) (x_stdin p))))) ->
    (forall m st, utf8_json (JObj m) -> mfind "status" m = Some (JStr st) -> sure d (f (JObj m)) Q X) ->
    sure d (tbind (interp_execute E (x_code p) (x_silent p) (stores p) (x_ue p) (x_stdin p)) f) Q X.
  Proof.
    intros Hcode Hset Hf. unfold interp_execute. apply sure_bind. apply sure_bind.
    assert (R : sure d (tbind (kdo KCount) (fun n => tbind (interp E (RExecute n (x_code p) (x_silent p) (stores p) (x_ue p) (x_stdin p)))
      (fun reply => tbind (kdo KCount) (fun n => of_res (jset "execution_count" (JInt n) reply))))) (fun d a => sure d (f a) Q X) X).
    { cbn [kdo perform tbind]. cbn [sure]. intros n _. cbn [owes]. eapply sure_interp; [apply Hset|]. intros j (Hj & m & st & -> & Hst).
      cbn [kdo perform tbind sure]. intros n' _. cbn [jset of_res sure owes]. apply Hf with (st := st).
      - apply utf8_mset; auto using utf8_int. lit.
      - now rewrite mfind_mset_other. }
    destruct (x_silent p); [exact R|]. cbn [kdo perform tbind sure]. intros n [_ Hn]. cbn [owes]. destruct (Z.eqb_spec n int_max) as [->|_]; [cbn; auto|].
    cbn [tbind sure owes]. intros ? _. apply sure_publish; [lit|apply utf8_empty| |exact R].
    apply utf8_obj. repeat constructor; cbn [fst snd]; auto using utf8_str, utf8_int; lit.
  Qed.
  Lemma sure_execute m c p : exec_params (m_content (m_base m)) p ->
    (forall n, settles E (fun j => utf8_json j /\ exists m st, j = JObj m /\ mfind "status" m = Some (JStr st))
       (embed E (e_interp E (RExecute n (x_code p) (x_silent p) (stores p) (x_ue p) (x_stdin p))))) ->
    utf8_json (m_content (m_base m)) ->
    sure 1 (execute_request E m c) (fun d _ => settled d) excused.
  Proof.
    intros Hp Hset Hut. pose proof (params_code_utf8 _ _ Hut Hp) as Hcode. unfold execute_request. cbv zeta. apply sure_catch.
    destruct Hp as (o & -> & F1 & F2 & F3 & F4 & F5 & F6 & F7).
    eapply sure_code; [exact F1|]. eapply sure_bool; [exact F2|]. eapply sure_bool; [exact F3|]. eapply sure_num; [exact F4|].
    eapply sure_res; [apply any_field_value; exact F5|]. eapply sure_bool; [exact F6|]. eapply sure_bool; [exact F7|].
    apply sure_metadata. intros md Hmd. apply sure_interp_execute; auto. intros m' st Hm' Hst.
    eapply sure_res; [unfold value_string, jvalue; rewrite Hst; reflexivity|]. apply sure_bind. apply sure_send; auto; [lit|].
    assert (R : sure (1 - 1) (if negb (x_silent p) && String.eqb st "error" && x_stop p then abort_queue E else Ret tt)
      (fun d _ => settled d) (fun d => sure d (Ret tt) (fun d _ => settled d) excused /\ excused d)).
    { match goal with |- sure _ (if ?b then _ else _) _ _ => destruct b end; [|exact settled_0]. unfold abort_queue. cbn [kdo perform tbind sure]. intros n _. cbn [owes].
      eapply sure_impl; [| |apply sure_loop, settled_0]; auto. intros d [H1 H2]. split; [|split; auto]. cbn. unfold settled. now rewrite H1. }
    apply sure_bind. match goal with |- sure _ (if ?b then _ else _) _ _ => destruct b end; [|exact R]. cbn [kdo perform tbind sure]. intros h _. cbn [owes]. intros ? _. exact R.
  Qed.
  Lemma sure_handler m c ty : well_asked E (m_header (m_base m)) ty (m_content (m_base m)) -> utf8_json (m_content (m_base m)) ->
    exists h, mfind ty (handlers E) = Some h /\ sure 1 (h m c) (fun d _ => settled d) excused.
  Proof.
    intros Hwa Hut. remember (m_content (m_base m)) as ct eqn:Hct.
    destruct Hwa as [ct p Hp Hset|o code pos F1 F2 Hset|o code pos lvl F1 F2 F3 Hset|o code F1 Hset|ct Hset|o restart F1 Hset|ct|ct dbg Hdbg Hset|ct Hh].
    all: eexists; split; [reflexivity|].
    - subst. now apply sure_execute with (p := p).
    - unfold complete_request. rewrite <- Hct. cbv zeta. eapply sure_code; [exact F1|]. eapply sure_num; [exact F2|]. eapply sure_interp; [exact Hset|]. intros j Hj.
      apply sure_send; auto using utf8_empty, settled_0. lit.
    - unfold inspect_request. rewrite <- Hct. cbv zeta. eapply sure_code; [exact F1|]. eapply sure_num; [exact F2|]. eapply sure_num; [exact F3|]. eapply sure_interp; [exact Hset|]. intros j Hj.
      apply sure_send; auto using utf8_empty, settled_0. lit.
    - unfold is_complete_request. rewrite <- Hct. eapply sure_code; [exact F1|]. eapply sure_interp; [exact Hset|]. intros j Hj.
      apply sure_send; auto using utf8_empty, settled_0. lit.
    - unfold kernel_info_request. eapply sure_interp; [exact Hset|]. intros j [Hj [o ->]]. eapply sure_res; [reflexivity|].
      apply sure_send; auto using utf8_empty, settled_0; [lit|]. apply utf8_mset; auto; [lit|]. apply utf8_str. lit.
    - unfold shutdown_request. rewrite <- Hct. eapply sure_bool; [exact F1|]. eapply sure_interp; [exact Hset|]. intros j _.
      assert (Hr : utf8_json (jobj [("restart", JBool restart)])).
      { apply utf8_obj. repeat constructor; cbn [fst snd]; [lit|]. apply jvalid_utf8. reflexivity. }
      cbv zeta. unfold emit. cbn [kdo perform tbind sure]. intros ? _. cbn [owes]. apply sure_bind. apply sure_publish; auto using utf8_empty; [lit|].
      apply sure_send; auto using utf8_empty, settled_0. lit.
    - unfold interrupt_request. apply sure_bind. apply sure_publish; auto using utf8_empty; [lit|]. apply sure_send; auto using utf8_empty, settled_0. lit.
    - unfold debug_request. rewrite Hdbg, <- Hct. cbv zeta. unfold emit. cbn [kdo perform tbind]. cbn [sure]. intros ? _. cbn [owes]. apply sure_bind.
      eapply sure_settles; [exact Hset|apply u_embed2|]. intros j Hj. apply sure_metadata. intros md Hmd. apply sure_send; auto using settled_0. lit.
    - unfold history_request. cbn [kdo perform tbind sure]. intros h [Hf _]. cbn [owes]. destruct (Hh h Hf) as (j & Hj & Huj). rewrite <- Hct. eapply sure_res; [exact Hj|].
      apply sure_send; auto using utf8_empty, settled_0. lit.
  Qed.
  Lemma sure_dispatch w c : answerable_amid E w -> sure 1 (dispatch E w c) (fun d _ => settled d) excused.
  Proof.
    intros (m & ty & Ha & Hty & Hwa). pose proof (accepted_content_utf8 _ _ _ Ha) as Hut. unfold dispatch.
    apply sure_bind. unfold accepted in Ha. rewrite Ha. cbn [of_res tbind catch_std sure]. cbv zeta. unfold log. rewrite Hq. cbn [of_res tbind].
    assert (Hst : forall st, is_utf8_valid st = true -> utf8_json (jobj [("execution_state", JStr st)])).
    { intros st Hv. apply utf8_obj. repeat constructor; cbn [fst snd]; [lit|]. now apply utf8_str, utf8_lit. }
    unfold set_parent. cbn [kdo perform tbind]. cbn [sure]. intros ? _ ? _. cbn [owes]. apply sure_bind. unfold publish_status. apply sure_publish; auto using utf8_empty; [lit|].
    apply typed_value in Hty. eapply sure_res; [exact Hty|]. apply sure_bind.
    destruct (sure_handler m c ty Hwa Hut) as (h & Hf & Hs). unfold handle. rewrite Hf. apply sure_catch.
    eapply sure_impl; [| |exact Hs].
    - cbn beta. intros d _ H. apply sure_publish; auto using utf8_empty. lit.
    - intros d [H1 H2]. split; [|split; auto]. apply sure_bind. destruct (dump EStrict (m_content (m_base m))) as [t|e|u]; cbn [of_res sure]; auto; [|split; auto].
      apply sure_publish; auto using utf8_empty; [lit|]. unfold settled. now rewrite H1.
  Qed.
End Sure.

(** ** The two threads *)
Section System.
  Context {U : Type} (v : variant) (E : env U).
  Notation listener := (fun c w => dispatch E w c).
  Notation internal := (dispatch_internal E).
  Implicit Types (m : mem U) (s : ysys U).
  (** Where a thread is, and its steps. *)
  Inductive place := Listen (g : going U unit) | Intern (g : going U frames) | Rest.
  Definition place_of (c : channel) s : place :=
    match c with
    | SHELL => match y_sh s with SRun g _ => Listen g | SIntern g => Intern g | _ => Rest end
    | CONTROL => match y_ct s with CRun g => Listen g | _ => Rest end
    end.
  Inductive move (c : channel) : place -> mem U -> slabel -> place -> mem U -> Prop :=
  | mv_listen g m l g' m' : gstep c g m l g' m' -> move c (Listen g) m l (Listen g') m'
  | mv_intern g m l g' m' : c = SHELL -> gstep c g m l g' m' -> move c (Intern g) m l (Intern g') m'
  | mv_hand w m m' : m_k m' = m_k m -> move c Rest m (YHand c w) (Listen (Going (dispatch E w c))) m'
  | mv_ask w m m' : c = SHELL -> m_k m' = m_k m -> move c Rest m (YIntern w) (Intern (Going (internal w))) m'
  | mv_ret a m l m' : m_k m' = m_k m -> (forall c', foreign c' l) -> move c (Listen (Going (Ret a))) m l Rest m'
  | mv_answer w m l m' : c = SHELL -> m_k m' = m_k m -> (forall c', foreign c' l) -> move c (Intern (Going (Ret w))) m l Rest m'
  | mv_other p m l m' : m_k m' = m_k m -> (forall c', foreign c' l) -> move c p m l p m'.
  Definition other (c : channel) : channel := match c with SHELL => CONTROL | CONTROL => SHELL end.
  Lemma gstep_label c {A} (g : going U A) m l g' m' : gstep c g m l g' m' -> (forall c', ~ starts c' l) /\ foreign (other c) l.
  Proof.
    intros H. assert (X : forall c', ~ starts c' l).
    { intros c'. destruct H; cbn; auto. destruct o; cbn; auto. destruct x; auto. }
    split; auto. split; auto. destruct H; cbn; auto. destruct o; cbn; auto; [|destruct x; cbn]; destruct c; auto.
  Qed.
  Lemma foreign_env l : who l = TEnv \/ (exists t, l = YTau t) \/ (exists w, l = YInternEnd w) -> forall c, foreign c l.
  Proof.
    intros H c. repeat split; destruct l; cbn in *; auto.
    all: try (intros; destruct H as [H|[[? H]|[? H]]]; try discriminate; destruct c0; discriminate).
    all: destruct H as [H|[[? H]|[? H]]]; try discriminate; try (destruct c0; discriminate); tauto.
  Qed.
  Lemma ystep_move s l s' : ystep v listener internal s l s' ->
    exists c, move c (place_of c s) (y_mem s) l (place_of c s') (y_mem s') /\ place_of (other c) s' = place_of (other c) s /\ foreign (other c) l.
  Proof.
    assert (T : forall t c, foreign c (YTau t)) by (intros; apply foreign_env; eauto).
    intros H. destruct H; cbn [y_mem].
    - exists SHELL. cbn [place_of other y_sh y_ct]. split; [|split; auto].
      + destruct H; try (apply mv_other; auto; fail); try (constructor; auto; fail).
        * destruct b0; constructor; auto.
        * constructor; auto. apply foreign_env; eauto.
      + destruct H; auto; try (now apply gstep_label in H as [_ H]); try (repeat split; intros [=]; fail). apply foreign_env; eauto.
    - exists CONTROL. cbn [place_of other y_sh y_ct]. split; [|split; auto].
      + destruct H; try (apply mv_other; auto; fail); try (constructor; auto; fail).
      + destruct H; auto; try (now apply gstep_label in H as [_ H]); repeat split; intros [=].
    - exists CONTROL. cbn. split; auto. apply mv_other; auto.
    - exists CONTROL. cbn. split; auto. apply mv_other; auto.
    - exists SHELL. cbn. split; auto. apply mv_other; auto.
    - exists SHELL. cbn. split; auto. apply mv_other; auto.
    - exists SHELL. cbn. split; auto. apply mv_other; auto.
    - exists SHELL. cbn. split; auto. apply mv_other; auto.
    - exists SHELL. cbn. split; auto. apply mv_other; auto.
    - assert (F : forall c', foreign c' (YArrive ch w)) by (apply foreign_env; auto). exists SHELL. cbn. split; auto. apply mv_other; auto. now destruct ch.
    - assert (F : forall c', foreign c' (YBeat w)) by (apply foreign_env; auto). exists SHELL. cbn. split; auto. apply mv_other; auto.
    - assert (F : forall c', foreign c' YStdin) by (apply foreign_env; auto). exists SHELL. cbn. split; auto. apply mv_other; auto.
  Qed.
  Lemma chan_cases c c' : c' = c \/ c' = other c.
  Proof. destruct c, c'; auto. Qed.

  (** *** The answers of the shell thread *)
  Definition text (w : frames) : Prop := exists j a t, can_return (e_interp E (RInternal j)) a /\ dump (e_eh E) a = Ok t /\ w = [t].
  Lemma answer_text k0 start ls s c w s' : yrun v listener internal (y_init k0 start) ls s -> ystep v listener internal s (YAnswer c w) s' -> text w.
  Proof.
    intros Hr Hs. pose proof (yrun_phase _ _ _ _ _ _ Hr) as HP. unfold yphase in HP.
    assert (X : m_call (y_mem s) = SAnswered w /\ calling_is c (y_sh s) (y_ct s) \/ m_call (y_mem s) = SAnswered w /\ c = SHELL /\ sh_calling (y_sh s) = true).
    { remember (YAnswer c w) as l eqn:Hl. destruct Hs; try discriminate; cbn [y_sh y_ct y_mem] in *.
      - right. assert (G : forall A (g g' : going U A) m1 m2, gstep SHELL g m1 l g' m2 -> m_call m1 = SAnswered w /\ c = SHELL /\ is_calling g = true).
        { intros A g g' m1 m2 G. destruct G; try discriminate; [destruct o; try discriminate; destruct x; discriminate|]. injection Hl as <- <-. auto. }
        destruct H; try discriminate; cbn [sh_calling]; eapply G; eauto.
      - left. destruct H; try discriminate. destruct H; try discriminate; [destruct o; try discriminate; destruct x; discriminate|]. injection Hl as <- <-.
        split; auto. cbn [y_ct] in HP. rewrite H in HP. inversion HP; subst; cbn; repeat match goal with X : calling_is _ _ _ |- _ => destruct X | X : none_calling _ _ |- _ => destruct X end; cbn in *; try discriminate. split; auto. }
    destruct X as [[X Hc]|(X & -> & Hc)].
    - destruct (in_call_inv _ _ _ _ _ _ HP Hc X) as (_ & L' & w' & _ & HL & _).
      assert (Hin : In (YInternEnd w) ls). { assert (In (YInternEnd w) (sync ls)) as Hi; [|now apply filter_In in Hi as [Hi _]]. rewrite HL. apply in_or_app. right. cbn; auto. }
      apply in_split in Hin as (a & b & ->). destruct (intern_end _ _ _ _ _ _ _ _ _ Hr eq_refl) as (? & ? & ? & _ & _ & (t & rest & j & r & tx & _ & _ & _ & Hc' & Hd & ->)). exists j, r, tx. auto.
    - exfalso. rewrite X in HP. inversion HP; subst; repeat match goal with X : calling_is _ _ _ |- _ => destruct X | X : none_calling _ _ |- _ => destruct X end; cbn in *; congruence.
  Qed.

  (** *** Headers and history *)
  Definition fine m : Prop := parents_utf8 (m_k m) /\ Forall entry_utf8 (k_history (m_k m)).
  Lemma fine_same m m' : m_k m' = m_k m -> fine m -> fine m'.
  Proof. unfold fine. now intros ->. Qed.
  Lemma mop_fine o m m' x : mop o m m' x -> fine m -> lawful o -> fine m' /\ found E o x.
  Proof.
    intros H [F1 F2] L. destruct o; cbn [mop found lawful] in *; try (match type of H with _ /\ _ => destruct H as [-> ->] end; split; [split; [exact F1|exact F2]|cbn; auto]; fail).
    - destruct H as [-> ->]. split; [|exact I]. split; [|exact F2]. intros c'. cbn. unfold upd_chan. destruct (chan_eqb _ _); auto.
    - subst m'. split; [|exact I]. destruct e; split; [exact F1|exact F2|exact F1|exact F2|exact F1|exact F2|exact F1|exact F2|exact F1|exact F2|exact F1|exact F2|exact F1|exact F2|exact F1|exact F2|exact F1|exact F2].
    - destruct H as (_ & -> & _). split; [split; [exact F1|exact F2]|exact I].
    - subst m'. split; [split; [exact F1|exact F2]|exact I].
    - destruct (m_shellq m); destruct H as [-> ->]; (split; [split; [exact F1|exact F2]|exact I]).
    - destruct H.
    - destruct H as [-> ->]. split; [|exact I]. split; [exact F1|exact L].
  Qed.
  Definition gtame {A} (g : going U A) : Prop := match g with Going p => tame E p | Calling k => forall x, text x -> tame E (k x) end.
  Definition ptame (p : place) : Prop := match p with Listen g => gtame g | Intern g => gtame g | Rest => True end.
  Lemma gstep_tame c {A} (g : going U A) m l g' m' : gstep c g m l g' m' -> fine m -> gtame g -> (forall w, l = YAnswer c w -> text w) -> fine m' /\ gtame g'.
  Proof.
    intros H F T X. destruct H as [o k m m' x H|w k m H|k w m H]; cbn [gtame tame] in *.
    - destruct T as [L T]. destruct (mop_fine _ _ _ _ H F L) as [F' Hx]. auto.
    - destruct T as [L T]. split; auto.
    - split; auto.
  Qed.
  Definition kept s : Prop := fine (y_mem s) /\ forall c, ptame (place_of c s).
  Lemma yrun_kept k0 start ls s : parents_utf8 k0 -> Forall entry_utf8 (k_history k0) -> yrun v listener internal (y_init k0 start) ls s -> kept s.
  Proof.
    intros P0 H0 H. remember (y_init k0 start) as s0 eqn:Hs0. induction H as [|s0 ls s1 l s2 H IH Hst]; subst.
    - split; [split; auto|]. intros []; exact I.
    - destruct (IH eq_refl) as [F T]. assert (HX : forall c w, l = YAnswer c w -> text w) by (intros c w ->; eapply answer_text; eauto).
      destruct (ystep_move _ _ _ Hst) as (c & M & O & _). pose proof (T c) as Tc.
      assert (R : fine (y_mem s2) /\ ptame (place_of c s2)).
      { destruct M as [g m l g' m' G|g m l g' m' _ G|w m m' K|w m m' _ K|a m l m' K _|w m l m' _ K _|p m l m' K _]; cbn [ptame] in *; try (split; [eapply fine_same; eauto|auto]; fail).
        - eapply gstep_tame; eauto.
        - eapply gstep_tame; eauto.
        - split; [eapply fine_same; eauto|]. apply tame_dispatch.
        - split; [eapply fine_same; eauto|]. apply keep_tame, user_keep, u_internal. }
      split; [apply R|]. intros c'. destruct (chan_cases c c') as [->| ->]; [apply R|]. rewrite O. apply T.
  Qed.

  (** *** The counter *)
  Definition gthrifty {A} b kn (g : going U A) : Prop := match g with Going p => thrifty b kn p | Calling k => forall x, thrifty b kn (k x) end.
  Definition pthrifty b kn (p : place) : Prop := match p with Listen g => gthrifty b kn g | Intern g => gthrifty b kn g | Rest => True end.
  Lemma mop_count o m m' x : mop o m m' x -> (forall z, o <> KSetCount z) -> k_count (m_k m') = k_count (m_k m).
  Proof.
    intros H L. destruct o; cbn [mop] in *; try (match type of H with _ /\ _ => destruct H as [-> _] end; reflexivity).
    - subst m'. destruct e; reflexivity.
    - destruct H as (_ & -> & _). reflexivity.
    - now subst.
    - destruct (m_shellq m); destruct H as [-> _]; reflexivity.
    - destruct H.
    - now destruct (L z eq_refl).
  Qed.
  (** [bd]: the bound; [o]: the budget of the other thread. *)
  Lemma gstep_thrifty c {A} (g : going U A) m l g' m' b kn o bd : gstep c g m l g' m' -> gthrifty b kn g -> 0 <= b -> kn + b + o <= bd -> k_count (m_k m) + b + o <= bd ->
    exists b' kn', gthrifty b' kn' g' /\ 0 <= b' <= b /\ kn' + b' + o <= bd /\ k_count (m_k m') + b' + o <= bd.
  Proof.
    intros H T Hb Hk Hc. destruct H as [op k m m' x H|w k m H|k w m H]; cbn [gthrifty thrifty] in *.
    - destruct T as [L T]. exists (left_of op b), (knows op kn x). split; [apply T|]. destruct op; cbn [left_of knows affords] in *; try (rewrite (mop_count _ _ _ _ H) by discriminate; lia).
      + rewrite (mop_count _ _ _ _ H) by discriminate. cbn in H. destruct H as [_ ->]. cbn [kstep snd]. lia.
      + cbn in H. destruct H as [-> ->]. cbn. lia.
    - exists b, kn. split; [|cbn; lia]. intros x. apply T.
    - exists b, kn. split; [|cbn; lia]. apply T.
  Qed.
  Lemma handed_snoc ls l : handed (ls ++ [l]) = handed ls + match l with YHand _ _ => 1 | _ => 0 end.
  Proof. unfold handed. rewrite filter_app, app_length, Nat2Z.inj_add. destruct l; reflexivity. Qed.
  Lemma handed_other ls l : (forall c, ~ starts c l) -> handed (ls ++ [l]) = handed ls.
  Proof. intros H. rewrite handed_snoc. destruct l; try lia. now destruct (H c). Qed.
  Definition counted (k0 : kstate U) ls s : Prop := exists b kn, (forall c, 0 <= b c /\ kn c + b c + b (other c) <= k_count k0 + handed ls /\ pthrifty (b c) (kn c) (place_of c s)) /\
    k_count (m_k (y_mem s)) + b SHELL + b CONTROL <= k_count k0 + handed ls.
  Lemma yrun_counted k0 start ls s : yrun v listener internal (y_init k0 start) ls s -> counted k0 ls s.
  Proof.
    intros H. remember (y_init k0 start) as s0 eqn:Hs0. induction H as [|s0 ls s1 l s2 H IH Hst]; subst.
    - exists (fun _ => 0), (fun _ => k_count k0). split; [intros c; split; [lia|]; split; [cbn; lia|destruct c; exact I]|]. cbn. lia.
    - destruct (IH eq_refl) as (b & kn & T & C). destruct (ystep_move _ _ _ Hst) as (c & M & O & _). destruct (T c) as (B1 & B2 & B3). destruct (T (other c)) as (D1 & D2 & D3).
      assert (C' : k_count (m_k (y_mem s1)) + b c + b (other c) <= k_count k0 + handed ls) by (destruct c; cbn [other]; lia).
      assert (R : exists b' kn', 0 <= b' /\ kn' + b' + b (other c) <= k_count k0 + handed (ls ++ [l]) /\ pthrifty b' kn' (place_of c s2) /\
        k_count (m_k (y_mem s2)) + b' + b (other c) <= k_count k0 + handed (ls ++ [l]) /\ b' - b c <= handed (ls ++ [l]) - handed ls).
      { assert (F : (forall c, ~ starts c l) -> handed (ls ++ [l]) = handed ls) by apply handed_other.
        destruct M as [g m l g' m' G|g m l g' m' _ G|w m m' K|w m m' _ K|a m l m' K L|w m l m' _ K L|p m l m' K L]; cbn [pthrifty] in *.
        - destruct (gstep_thrifty _ _ _ _ _ _ _ _ (b (other c)) _ G B3 B1 B2 C') as (b' & kn' & R1 & R2 & R3 & R4). exists b', kn'. rewrite F by apply (gstep_label _ _ _ _ _ _ G). repeat split; auto; lia.
        - destruct (gstep_thrifty _ _ _ _ _ _ _ _ (b (other c)) _ G B3 B1 B2 C') as (b' & kn' & R1 & R2 & R3 & R4). exists b', kn'. rewrite F by apply (gstep_label _ _ _ _ _ _ G). repeat split; auto; lia.
        - exists 1, (k_count (m_k m)). rewrite K, handed_snoc. repeat split; try lia. apply thrifty_dispatch.
        - exists 0, (k_count (m_k m)). rewrite K, handed_snoc. repeat split; try lia. apply thrifty_none, keep_uncounted, user_keep, u_internal.
        - exists (b c), (kn c). rewrite K, F by apply L. repeat split; auto; lia.
        - exists (b c), (kn c). rewrite K, F by apply L. repeat split; auto; lia.
        - exists (b c), (kn c). rewrite K, F by apply L. repeat split; auto; lia. }
      destruct R as (b' & kn' & R1 & R2 & R3 & R4 & R5).
      exists (fun x => if chan_eqb x c then b' else b x), (fun x => if chan_eqb x c then kn' else kn x). split.
      + intros x. destruct (chan_cases c x) as [->| ->].
        * rewrite chan_eqb_refl. replace (chan_eqb (other c) c) with false by (destruct c; reflexivity). auto.
        * replace (chan_eqb (other c) c) with false by (destruct c; reflexivity). replace (other (other c)) with c in * by (destruct c; reflexivity).
          rewrite chan_eqb_refl, O. split; auto. split; auto. lia.
      + destruct c; cbn in *; lia.
  Qed.
End System.

(** ** Replies owed by a thread *)
Section Owed.
  Context {U : Type} (v : variant) (E : env U) (Hq : quiet E) (Hu : env_utf8 E).
  Context (all : bool) (W : frames -> Prop) (S : Prop).
  Context (HW : all = true -> forall w, W w -> abortable E w) (HS : all = false -> S).
  Notation listener := (fun c w => dispatch E w c).
  Notation internal := (dispatch_internal E).
  Implicit Types (m : mem U) (s : ysys U).
  Definition surely d (p : kprog U unit) : Prop := sure E all W S d p (fun d _ => settled all d) (excused all).
  Definition gsure d (g : going U unit) : Prop := match g with Going p => surely d p | Calling k => forall x, text E x -> surely d (k x) end.
  Definition gsettles (g : going U frames) : Prop :=
    match g with Going p => settles E (fun _ => True) p | Calling k => forall x, text E x -> settles E (fun _ => True) (k x) end.
  Definition net (c : channel) (l : list slabel) : Z :=
    1 + (if all then Z.of_nat (List.length (filter (is_accepted E) (tooks c l))) else 0) - Z.of_nat (List.length (sends (events c l))).
  Definition owed_at (c : channel) (ls : list slabel) (p : place (U := U)) : Prop :=
    match p with
    | Listen g => exists l1 w l2, ls = (l1 ++ YHand c w :: l2)%list /\ in_same c l2 /\
        (rejected E w -> g = Going (Ret tt)) /\ (answerable_amid E w -> Forall W (tooks c l2) -> gsure (net c l2) g)
    | Intern g => c = SHELL /\ exists l1 w l2, ls = (l1 ++ YIntern w :: l2)%list /\ in_same c l2 /\ (well_inquired E w -> gsettles g)
    | Rest => forall l1 w l2, ls = (l1 ++ YHand c w :: l2)%list -> in_same c l2 -> answerable_amid E w -> Forall W (tooks c l2) -> settled all (net c l2)
    end.
  Lemma net_app c a b : net c (a ++ b) = net c a + net c b - 1.
  Proof. unfold net. rewrite tooks_app, events_app, sends_app, filter_app, !app_length, !Nat2Z.inj_add. destruct all; lia. Qed.
  Lemma net_foreign c a l : foreign c l -> net c (a ++ [l]) = net c a.
  Proof. intros (_ & F2 & F3). rewrite net_app. unfold net at 2. rewrite F2, F3. cbn. destruct all; lia. Qed.
  Lemma owed_foreign c ls l p : owed_at c ls p -> foreign c l -> owed_at c (ls ++ [l]) p.
  Proof.
    intros H F. pose proof F as (F1 & F2 & F3). destruct p as [g|g|]; cbn [owed_at] in *.
    - destruct H as (l1 & w & l2 & -> & A & B & C). exists l1, w, (l2 ++ [l])%list. rewrite <- app_assoc. split; auto. split; [apply Forall_app; auto|]. split; auto.
      intros Ha Hw. rewrite tooks_app, F2, app_nil_r in Hw. rewrite net_foreign by exact F. auto.
    - destruct H as (-> & l1 & w & l2 & -> & A & B). split; auto. exists l1, w, (l2 ++ [l])%list. rewrite <- app_assoc. split; auto. split; [apply Forall_app; auto|]. auto.
    - intros l1 w l2 Hl H2 Ha Hw. destruct l2 as [|y l2 _] using rev_ind.
      + apply app_inj_tail in Hl as [_ ->]. destruct F1. reflexivity.
      + rewrite app_comm_cons, app_assoc in Hl. apply app_inj_tail in Hl as [-> <-]. apply Forall_app in H2 as [H2 _].
        rewrite tooks_app, F2, app_nil_r in Hw. rewrite net_foreign by exact F. eauto.
  Qed.
  Lemma mop_found o m m' x : mop o m m' x -> fine m -> found E o x.
  Proof. intros H [F1 F2]. destruct o; cbn [mop found] in *; auto; try (destruct H as [_ ->]; cbn; auto; fail). destruct H. Qed.
  Lemma gstep_sure c (g : going U unit) m l g' m' d : gstep c g m l g' m' -> fine m -> (k_count (m_k m) = int_max -> S) -> (forall w, l = YAnswer c w -> text E w) ->
    gsure d g -> Forall W (tooks c [l]) -> gsure (d + net c [l] - 1) g'.
  Proof.
    intros H F HC HX G HT. destruct H as [o k m m' x H|w k m H|k w m H]; cbn [gsure] in *; unfold surely in *; cbn [sure] in G.
    - replace (d + net c [label_of c o x] - 1) with (owes E all o d x).
      + apply G. split; [eapply mop_found; eauto|]. destruct o; auto.
        * destruct x; auto. cbn in HT. rewrite chan_eqb_refl in HT. now inversion HT.
        * cbn in H. destruct H as [_ ->]. exact HC.
      + clear -HT. unfold net. destruct o; cbn [owes label_of]; try (destruct all; cbn; lia).
        * cbn [tooks events flat_map]. rewrite chan_eqb_refl. destruct e; cbn; destruct all; lia.
        * destruct x as [w|]; [|destruct all; cbn; lia]. cbn [tooks events flat_map]. rewrite chan_eqb_refl. cbn [app filter]. destruct all; [|cbn; lia]. cbn [andb]. destruct (is_accepted E w); cbn; lia.
    - replace (d + net c [YCall c w] - 1) with d by (unfold net; cbn; destruct all; lia). intros x Hx. apply (G x). split; auto.
    - replace (d + net c [YAnswer c w] - 1) with d by (unfold net; cbn; destruct all; lia). auto.
  Qed.
  Lemma gstep_ret c m l g' m' : ~ gstep c (Going (Ret tt) : going U unit) m l g' m'.
  Proof. intros H. inversion H. Qed.
  Lemma gstep_settles c (g : going U frames) m l g' m' : gstep c g m l g' m' -> fine m -> (forall w, l = YAnswer c w -> text E w) -> gsettles g -> gsettles g'.
  Proof.
    intros H F HX G. destruct H as [o k m m' x H|w k m H|k w m H]; cbn [gsettles settles] in *; auto. apply G. eapply mop_found; eauto.
  Qed.
  Lemma dump_utf8 h j : utf8_json j -> exists t, dump h j = Ok t.
  Proof. intros H. apply jvalid_utf8, dump_valid in H as [t H]. exists t. exact (dump_same h _ _ H). Qed.
  Lemma internal_settles w : well_inquired E w -> settles E (fun _ => True) (internal w).
  Proof.
    intros (t & rest & j & -> & Hp & Hs). unfold dispatch_internal. cbn [pop bind of_res tbind]. rewrite Hp. cbn [of_res tbind].
    unfold interp, emit. cbn [kdo perform tbind settles]. intros _ _.
    revert Hs. generalize (embed E (e_interp E (RInternal j))). intros p Hs. induction p as [a|e|y|o k IH]; cbn [tbind settles] in *; try contradiction; auto.
    destruct (dump_utf8 (e_eh E) a Hs) as [tx ->]. cbn. auto.
  Qed.
  Lemma rejected_dispatch w c : rejected E w -> dispatch E w c = Ret tt.
  Proof. intros [what H]. unfold dispatch. rewrite H. reflexivity. Qed.
  Lemma net_nil c : net c [] = 1.
  Proof. unfold net. cbn. destruct all; lia. Qed.
  Lemma yrun_owed k0 start ls s : parents_utf8 k0 -> Forall entry_utf8 (k_history k0) -> yrun v listener internal (y_init k0 start) ls s ->
    (S \/ k_count k0 + handed ls < int_max) -> forall c, owed_at c ls (place_of c s).
  Proof.
    intros P0 H0 H. remember (y_init k0 start) as s0 eqn:Hs0. induction H as [|s0 ls s1 l s2 H IH Hst]; subst; intros HB.
    - assert (X : forall c, owed_at c [] Rest) by (intros c [|? ?] ? ? [=]). intros []; apply X.
    - assert (HB' : S \/ k_count k0 + handed ls < int_max).
      { destruct HB as [HB|HB]; auto. right. rewrite handed_snoc in HB. destruct l; lia. }
      specialize (IH eq_refl HB').
      destruct (yrun_kept v E _ _ _ _ P0 H0 H) as [F _].
      assert (HC : k_count (m_k (y_mem s1)) = int_max -> S).
      { intros Hm. destruct HB' as [?|HB']; auto. exfalso. destruct (yrun_counted v E _ _ _ _ H) as (b & kn & T & C).
        destruct (T SHELL) as (T1 & _). destruct (T CONTROL) as (T2 & _). lia. }
      assert (HX : forall c w, l = YAnswer c w -> text E w) by (intros c w ->; eapply answer_text; eauto).
      destruct (ystep_move _ _ _ _ _ Hst) as (c & M & O & Fo). intros c'. destruct (chan_cases c c') as [->| ->]; [|rewrite O; apply owed_foreign; auto].
      pose proof (IH c) as I. clear IH.
      destruct M as [g m l g' m' G|g m l g' m' Hc G|w m m' K|w m m' Hc K|[] m l m' K L|w m l m' Hc K L|p m l m' K L]; [cbn [owed_at] in *..|].
      + destruct I as (l1 & w & l2 & -> & A & B & C). exists l1, w, (l2 ++ [l])%list. rewrite <- app_assoc. split; auto.
        split; [apply Forall_app; split; auto; constructor; auto; apply (gstep_label _ _ _ _ _ _ G)|]. split.
        * intros Hr. rewrite (B Hr) in G. now apply gstep_ret in G.
        * intros Ha Hw. rewrite tooks_app in Hw. apply Forall_app in Hw as [Hw1 Hw2]. rewrite net_app.
          eapply gstep_sure; eauto.
      + destruct I as (_ & l1 & w & l2 & -> & A & B). split; auto. exists l1, w, (l2 ++ [l])%list. rewrite <- app_assoc. split; auto.
        split; [apply Forall_app; split; auto; constructor; auto; apply (gstep_label _ _ _ _ _ _ G)|]. intros Hw. eapply gstep_settles; eauto.
      + exists ls, w, []. split; auto. split; [constructor|]. split; [intros Hr; now rewrite rejected_dispatch|].
        intros Ha _. rewrite net_nil. cbn [gsure]. unfold surely. now apply sure_dispatch.
      + split; auto. exists ls, w, []. split; auto. split; [constructor|]. apply internal_settles.
      + apply (owed_foreign c _ l Rest); auto. destruct I as (l1 & w & l2 & -> & A & B & C). intros l1' w' l2' Hl H2 Ha Hw.
        destruct (last_start c _ _ _ _ _ _ Hl) as (<- & Hww & <-); [reflexivity|reflexivity|exact A|exact H2|]. injection Hww as <-. exact (C Ha Hw).
      + apply (owed_foreign c _ l Rest); auto. destruct I as (_ & l1 & w' & l2 & -> & A & B). intros l1' w1 l2' Hl H2 Ha Hw.
        destruct (last_start c _ _ _ _ _ _ Hl) as (<- & Hww & <-); [exact Hc|reflexivity|exact A|exact H2|]. discriminate.
      + apply owed_foreign; auto.
  Qed.
End Owed.

(** ** What the runs show *)
Section Shown.
  Context {U : Type} (v : variant) (E : env U) (raw : string -> Prop) (HU : user_publishes E raw) (Hraw : ~ raw "status").
  Context (Hq : quiet E) (Hu : env_utf8 E) (k0 : kstate U) (start : frames) (P0 : parents_utf8 k0) (H0 : Forall entry_utf8 (k_history k0)).
  Notation listener := (fun c w => dispatch E w c).
  Notation internal := (dispatch_internal E).
  Notation run_to := (yrun v listener internal (y_init k0 start)).
  Lemma rests_place c (s : ysys U) : rests c s <-> place_of c s = Rest.
  Proof. destruct c; cbn; [destruct (y_sh s)|destruct (y_ct s)]; split; auto; try discriminate; contradiction. Qed.
  Lemma handles_place c (s : ysys U) p : handles c s p <-> place_of c s = Listen (Going p).
  Proof.
    destruct c; cbn; [destruct (y_sh s)|destruct (y_ct s)]; split; try discriminate; try (intros [? [=]]; fail).
    - intros [b [= -> ->]]. reflexivity.
    - intros [= ->]. eauto.
    - intros [= ->]. reflexivity.
    - intros [= ->]. reflexivity.
  Qed.
  Lemma rests_segment c ls s l1 w l2 : run_to ls s -> rests c s -> ls = (l1 ++ YHand c w :: l2)%list -> in_same c l2 -> segment E c w (tooks c l2) (events c l2) true.
  Proof.
    intros Hr Hs Hl H2. destruct (yrun_at v E raw HU Hraw _ _ _ _ Hr) as [A B].
    assert (N : in_none E c ls) by (destruct c; cbn in Hs; [destruct (y_sh s)|destruct (y_ct s)]; try contradiction; assumption). destruct N as [N _]. eauto.
  Qed.
  Lemma starts_rests c ls s l s' : run_to ls s -> ystep v listener internal s l s' -> starts c l -> rests c s.
  Proof.
    intros Hr Hs Hl. apply rests_place. destruct (ystep_move _ _ _ _ _ Hs) as (c' & M & O & Fo).
    destruct (chan_cases c' c) as [->| ->]; [|destruct Fo; contradiction].
    destruct M as [g m l g' m' G|g m l g' m' Hc G|w m m' K|w m m' Hc K|[] m l m' K L|w m l m' Hc K L|p m l m' K L]; auto.
    - apply gstep_label in G as [G _]. now destruct (G c').
    - apply gstep_label in G as [G _]. now destruct (G c').
    - destruct (L c'). contradiction.
    - destruct (L c'). contradiction.
    - destruct (L c'). contradiction.
  Qed.
  (** One request. *)
  Lemma one_answered c ls s l1 w l2 : run_to ls s -> rests c s -> ls = (l1 ++ YHand c w :: l2)%list -> in_same c l2 -> answerable_amid E w ->
    exists m ty busy mid rep ab idle, accepted E w m /\ typed (m_header (m_base m)) ty /\ events c l2 = (busy :: mid ++ rep :: ab ++ [idle])%list /\
      status_event E "busy" c (m_header (m_base m)) busy /\ Forall (inner E c m) mid /\
      well_sent E rep /\ routed E c (m_ids m) (m_header (m_base m)) ty rep /\
      (exists ws, aborted E ws ab /\ (tooks c l2 = ws \/ exists x, tooks c l2 = (ws ++ [x])%list)) /\
      status_event E "idle" c (m_header (m_base m)) idle.
  Proof.
    intros Hr Hs Hl H2 Ha. pose proof (rests_segment _ _ _ _ _ _ Hr Hs Hl H2) as Sg.
    assert (N : net E false c l2 <= 0).
    { pose proof (yrun_owed v E Hq Hu false (fun _ => True) True ltac:(discriminate) (fun _ => I) _ _ _ _ P0 H0 Hr (or_introl I) c) as O.
      rewrite (proj1 (rests_place c s) Hs) in O. apply (O l1 w l2 Hl H2 Ha). apply Forall_forall. auto. }
    unfold net in N. destruct Ha as (m & ty & Ha & Hty & _).
    remember true as ok eqn:Hok. remember (events c l2) as evs eqn:He. remember (tooks c l2) as tk eqn:Ht.
    destruct Sg as [|Hrej|m1 busy mid A1 B1 W1 F1|m1 ty1 busy mid rep ab ws tl A1 T1 B1 W1 F1 Wr R AB Htl Hn|m2 ty2 tl evs idle Sg Hne A2 T2 B2 W2]; try discriminate.
    - destruct Hrej as [what Hrej]. unfold accepted in Ha. congruence.
    - remember false as ok' eqn:Hok'. clear He Ht.
      destruct Sg as [|Hrej|m1 busy mid A1 B1 W1 F1|m1 ty1 busy mid rep ab ws tl A1 T1 B1 W1 F1 Wr R AB Htl Hn|? ? ? ? ? _ _ _ _ _ _]; try discriminate; try (now destruct Hne).
      + exfalso. rewrite sends_none in N; [cbn in N; lia|]. apply Forall_app. split; [|constructor; [eapply status_not_send; eauto|constructor]].
        constructor; [eapply status_not_send; eauto|]. eapply Forall_impl; [|exact F1]. intros e X. apply X.
      + unfold accepted in *. assert (m1 = m) as -> by congruence. assert (m2 = m) as -> by congruence.
        exists m, ty1, busy, mid, rep, ab, idle. split; auto. split; auto. split; [cbn; now rewrite <- app_assoc|]. repeat (split; auto). exists ws. auto.
  Qed.
  (** Each request. *)
  Lemma sub_filter {A} (f : A -> bool) a b : sub a b -> sub (filter f a) (filter f b).
  Proof. induction 1 as [|a b x H IH|a b x H IH]; cbn; [constructor| |]; destruct (f x); auto using sub_skip, sub_take. Qed.
  Lemma sub_length {A} (a b : list A) : sub a b -> (List.length a <= List.length b)%nat /\ (List.length a = List.length b -> a = b).
  Proof. induction 1 as [|a b x H [I1 I2]|a b x H [I1 I2]]; cbn; [auto| |]; split; try lia. intros X. f_equal. apply I2. lia. Qed.
  Lemma answers_accepted xs es : Forall2 (answers E) xs es -> filter (fun x => is_accepted E (snd x)) xs = xs.
  Proof.
    induction 1 as [|x e xs es (m & ty & r & f & id & rty & Ha & _) _ IH]; auto. cbn. unfold is_accepted at 1. unfold accepted in Ha. rewrite Ha. cbn. now rewrite IH.
  Qed.
  Definition acc (x : channel * frames) : bool := is_accepted E (snd x).
  Lemma filter_pair l : List.length (filter acc (List.map (pair SHELL) l)) = List.length (filter (is_accepted E) l).
  Proof. induction l as [|x l IH]; auto. cbn. unfold acc at 1. cbn. destruct (is_accepted E x); cbn; auto. Qed.
  Lemma pairs_length {A B} (R : A -> B -> Prop) xs ys : Forall2 R xs ys -> List.length xs = List.length ys.
  Proof. induction 1; cbn; auto. Qed.
  Lemma segment_each c w l evs : segment E c w l evs true -> (rejected E w \/ answerable_amid E w) ->
    (answerable_amid E w -> (1 + List.length (filter (is_accepted E) l) = List.length (sends evs))%nat) ->
    Forall2 (answers E) (filter acc ((c, w) :: List.map (pair SHELL) l)) (sends evs).
  Proof.
    intros Sg Hw HN. destruct Hw as [Hr|Ha].
    - destruct Hr as [what Hr]. remember true as ok eqn:Hok. destruct Sg; try discriminate; [|exfalso; unfold accepted in *; congruence].
      cbn. unfold acc, is_accepted. cbn. rewrite Hr. constructor.
    - specialize (HN Ha). destruct Ha as (m & ty & Ha & _). apply segment_answers in Sg as (xs & A & B). pose proof (answers_accepted _ _ B) as Hx. pose proof (sub_filter acc _ _ A) as C.
      unfold acc at 1 in C. rewrite Hx in C. apply sub_length in C as [_ C]. rewrite <- C; auto. rewrite (pairs_length _ _ _ B).
      cbn. unfold acc at 1, is_accepted at 1. cbn. unfold accepted in Ha. rewrite Ha. cbn. rewrite filter_pair. auto.
  Qed.
  Lemma took_in c w ls : In w (tooks c ls) -> In (YTook c w) ls.
  Proof.
    intros H. apply in_flat_map in H as (l & Hl & H). destruct l; try (now destruct H). destruct (chan_eqb c c0) eqn:X; [|destruct H].
    apply chan_eqb_eq in X as ->. destruct H as [->|[]]. exact Hl.
  Qed.
  Lemma each_answered c n : forall ls s, (List.length ls <= n)%nat -> run_to ls s -> rests c s ->
    (forall w, In (YHand c w) ls -> rejected E w \/ answerable_amid E w) -> (forall w, In (YTook c w) ls -> abortable E w) ->
    Forall2 (answers E) (filter acc (received_by c ls)) (sends (events c ls)).
  Proof.
    induction n as [|n IH]; intros ls s Hn Hr Hs HH HT.
    { destruct ls; [|cbn in Hn; lia]. constructor. }
    destruct (find_start c ls) as [H|(l1 & x & l2 & Hl & Hx & H2)].
    - destruct (thread_before v E raw HU Hraw _ _ _ _ c Hr H) as [A B]. rewrite received_tooks, A, B by exact H. constructor.
    - destruct (yrun_app _ _ _ _ _ _ Hr l1 (x :: l2) Hl) as (s1 & R1 & R2).
      assert (Hs1 : rests c s1). { destruct (yrun_app _ _ _ _ _ _ R2 [x] l2 eq_refl) as (s2 & R3 & _). eapply starts_rests; eauto. apply yrun_one. exact R3. }
      assert (L1 : (List.length l1 <= n)%nat) by (rewrite Hl, app_length in Hn; cbn in Hn; lia).
      specialize (IH l1 s1 L1 R1 Hs1 (fun w Hw => HH w ltac:(rewrite Hl; apply in_or_app; auto)) (fun w Hw => HT w ltac:(rewrite Hl; apply in_or_app; auto))).
      destruct x; cbn in Hx; try contradiction; subst c.
      + pose proof (rests_segment _ _ _ _ _ _ Hr Hs Hl H2) as Sg.
        rewrite Hl, received_app, events_app, sends_app, filter_app. apply Forall2_app; auto.
        change (received_by c0 (YHand c0 w :: l2)) with ((if chan_eqb c0 c0 then [(c0, w)] else []) ++ received_by c0 l2)%list.
        rewrite chan_eqb_refl, received_tooks by exact H2. change (events c0 (YHand c0 w :: l2)) with (events c0 l2).
        apply segment_each; auto; [apply HH; rewrite Hl; apply in_elt|]. intros Ha.
        pose proof (yrun_owed v E Hq Hu true (abortable E) True (fun _ w Hw => Hw) (fun _ => I) _ _ _ _ P0 H0 Hr (or_introl I) c0) as O.
        rewrite (proj1 (rests_place c0 s) Hs) in O. specialize (O l1 w l2 Hl H2 Ha).
        assert (F : Forall (abortable E) (tooks c0 l2)). { apply Forall_forall. intros y Hy. apply HT. apply took_in in Hy. rewrite Hl. apply in_or_app. right. now right. }
        specialize (O F). unfold net, settled in O. lia.
      + destruct (thread_internal v E raw HU Hraw _ _ _ _ _ _ _ Hr Hl H2) as [C D].
        rewrite Hl, received_app, events_app, sends_app, filter_app.
        change (received_by SHELL (YIntern w :: l2)) with (received_by SHELL l2). change (events SHELL (YIntern w :: l2)) with (events SHELL l2).
        rewrite (received_tooks SHELL l2 H2), C, (sends_none (events SHELL l2)); [cbn; rewrite !app_nil_r; auto|].
        eapply Forall_impl; [|exact D]. intros e X. apply X.
  Qed.
  (** No failure. *)
  Lemma sure_safe d p : surely E true (abortable E) False d p -> ~ failing p.
  Proof. unfold surely. destruct p; cbn; auto. intros [X _] _. discriminate. Qed.
  Lemma safe c ls s p : run_to ls s -> handles c s p -> k_count k0 + handed ls < int_max ->
    (forall l1 w l2, ls = (l1 ++ YHand c w :: l2)%list -> in_same c l2 -> (rejected E w \/ answerable_amid E w) /\ Forall (abortable E) (tooks c l2)) -> ~ failing p.
  Proof.
    intros Hr Hs HB HH. pose proof (yrun_owed v E Hq Hu true (abortable E) False (fun _ w Hw => Hw) ltac:(discriminate) _ _ _ _ P0 H0 Hr (or_intror HB) c) as O.
    rewrite (proj1 (handles_place c s p) Hs) in O. destruct O as (l1 & w & l2 & Hl & A & B & C). destruct (HH l1 w l2 Hl A) as [[Hw|Hw] HF].
    - specialize (B Hw). injection B as ->. cbn. auto.
    - exact (sure_safe _ _ (C Hw HF)).
  Qed.
  Lemma no_crash ls s : run_to ls s -> k_count k0 + handed ls < int_max ->
    (forall c w, In (YHand c w) ls -> rejected E w \/ answerable_amid E w) -> (forall c w, In (YTook c w) ls -> abortable E w) ->
    (forall w, In (YIntern w) ls -> well_inquired E w) -> y_end s <> Some Crashed.
  Proof.
    intros Hr HB HH HT HI Hc. remember (y_init k0 start) as s0 eqn:Hs0. destruct Hr as [|s0 ls s1 l s2 Hr Hst]; subst; [discriminate|].
    assert (B1 : k_count k0 + handed ls < int_max) by (rewrite handed_snoc in HB; destruct l; lia).
    assert (S1 : forall c p, handles c s1 p -> ~ failing p).
    { intros c p Hp. eapply safe; eauto. intros l1 w l2 -> H2. split; [apply (HH c); apply in_or_app; left; apply in_elt|].
      apply Forall_forall. intros y Hy. apply (HT c). apply took_in in Hy. apply in_or_app; left. apply in_or_app; right. now right. }
    assert (S2 : forall g, y_sh s1 = SIntern g -> gsettles E g).
    { intros g Hg. pose proof (yrun_owed v E Hq Hu true (abortable E) False (fun _ w Hw => Hw) ltac:(discriminate) _ _ _ _ P0 H0 Hr (or_intror B1) SHELL) as O.
      cbn [place_of] in O. rewrite Hg in O. destruct O as (_ & l1 & w & l2 & Hl & A & B). apply B. apply HI. apply in_or_app; left. rewrite Hl. apply in_elt. }
    destruct Hst; try discriminate; try (destruct v; discriminate); cbn [y_sh y_ct] in *.
    - destruct a as [| |[p|] b0| |[p|]| |]; try contradiction.
      + apply (S1 SHELL p); auto. cbn. eauto.
      + specialize (S2 _ eq_refl). cbn in S2. destruct p; try contradiction.
    - destruct c as [| |[p|]| | | | | | | | |]; try contradiction. apply (S1 CONTROL p); auto. reflexivity.
  Qed.
End Shown.
