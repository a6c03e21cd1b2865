(** Proofs for the kernel with a logger (C88): the programs with and without it are the same, operation by operation. *)
From Verif Require Import Base BaseFacts Json JsonText JsonTextProofs JsonParseProofs Utf8 Utf8Proofs Auth Message MessageProofs WireSpec History Comm Host Logger HostSpec LoggerProofs Tree Kernel KernelSpec KernelProofs KernelRun LogSpec.

(** ** Chains are faithful *)
Lemma typed_type_of h ty : typed h ty -> type_of h ty.
Proof. intros (m & -> & H). exists m. split; auto. cbn [jfield]. destruct (mfind "msg_type" m) as [j|]; [left|right]; subst; auto. Qed.
Lemma chain_fails lg info header parent meta content t : type_of header t ->
  snd (log_message lg info header parent meta content) = Ok tt \/ snd (log_message lg info header parent meta content) = Exn type_error_316.
Proof.
  intros T. induction lg as [|l s next IH]; cbn [log_message]; [now left|].
  destruct (at_level_ok l header parent meta content t T) as (m & -> & _). cbn [bind].
  destruct s as [|f]; cbn [write_entry]; unfold dump; destruct (dump_opt EStrict _); cbn [bind]; auto;
    destruct (log_message next info header parent meta content) as [es r]; exact IH.
Qed.
Lemma utf8_app a b : utf8_text a -> utf8_text b -> utf8_text (a +++ b).
Proof.
  intros (x & X & ->) (y & Y & ->). exists (x ++ y)%list. split; [now apply Forall_app|]. now rewrite map_app, sconcat_app.
Qed.
Lemma chain_faithful lg : faithful (chain_logger lg).
Proof.
  intros l [(ty & T) H]. apply typed_type_of in T.
  assert (forall info, (Forall utf8_json (base_parts (logged_base l)) -> is_utf8_valid info = true) ->
    let r := snd (log_message lg info (m_header (logged_base l)) (m_parent_header (logged_base l)) (m_metadata (logged_base l)) (m_content (logged_base l))) in
    r = Ok tt \/ r = Exn type_error_316 /\ ~ Forall utf8_json (base_parts (logged_base l))) as K.
  { intros info I r. unfold r. destruct (chain_fails lg info _ (m_parent_header (logged_base l)) (m_metadata (logged_base l)) (m_content (logged_base l)) ty T) as [X|X]; auto.
    right. split; auto. intros F. pose proof (I F) as V. unfold base_parts in F.
    repeat match goal with H : Forall _ (_ :: _) |- _ => inversion H; clear H; subst end.
    destruct (log_all lg info _ (m_parent_header (logged_base l)) (m_metadata (logged_base l)) (m_content (logged_base l)) ty T V) as (es & R & _);
      try (now apply jvalid_utf8). rewrite R in X. discriminate. }
  assert (forall what c m, logged_base l = m_base m -> m_ids m <> [] ->
    is_utf8_valid ("XEUS: " +++ what +++ " message on " +++ channel_str c +++ " - " +++ "") = true ->
    let r := snd (log_channel what lg m c) in r = Ok tt \/ r = Exn type_error_316 /\ ~ Forall utf8_json (base_parts (logged_base l))) as K2.
  { intros what c m Hb Hi V. unfold log_channel. destruct lg as [|lv s next]; [now left|]. destruct (m_ids m) as [|id ids]; [congruence|].
    cbv zeta. rewrite <- Hb. apply K. intros _. apply is_utf8_valid_spec. apply is_utf8_valid_spec in V.
    assert (utf8_text (if is_utf8_valid id then id else "invalid UTF8")) as W.
    { destruct (is_utf8_valid id) eqn:X; [now apply is_utf8_valid_spec|now apply is_utf8_valid_spec]. }
    replace ("XEUS: " +++ what +++ " message on " +++ channel_str c +++ " - " +++ (if is_utf8_valid id then id else "invalid UTF8"))
      with (("XEUS: " +++ what +++ " message on " +++ channel_str c +++ " - " +++ "") +++ (if is_utf8_valid id then id else "invalid UTF8")).
    - now apply utf8_app.
    - repeat rewrite sapp_assoc. reflexivity. }
  unfold chain_logger, chain_call. destruct l as [m c|m c|m]; cbn [logged_base] in *.
  - apply K2; auto. destruct c as [[]|]; reflexivity.
  - apply K2; auto. destruct c as [[]|]; reflexivity.
  - unfold log_iopub. destruct lg as [|lv s next]; [now left|]. cbv zeta. apply K. intros F. apply is_utf8_valid_spec. apply utf8_app; auto.
    now apply is_utf8_valid_spec.
Qed.

(** ** Programs that are the same as long as the identities read are not empty *)
Section Sim.
  Context {U : Type}.
  Variable c : channel.      (* the channel of the thread *)
  Variable asks : Prop.      (* the shell channel has a parent *)
  Variable free : Prop.      (* events may be emitted in any case *)
  Implicit Types (b : bool) (o : kop U).
  (** [b]: the thread has set its parent. *)
  Definition known b (c' : channel) : Prop := (b = true /\ c' = c) \/ (asks /\ c' = SHELL).
  Definition rely b o : kans o -> Prop :=
    match o return kans o -> Prop with
    | KPid c' => fun ids => known b c' -> ids <> []
    | KShellPop => fun x => match x with Some w => addressed w | None => True end
    | _ => fun _ => True
    end.
  Definition loud b : Prop := b = true \/ asks \/ free.
  Definition guar b o : Prop := match o with KSetPid c' ids => c' = c /\ ids <> [] | KEmit _ | KCall _ => loud b | _ => True end.
  Definition sets o : bool := match o with KSetPid c' _ => chan_eqb c c' | _ => false end.
  Fixpoint sim {A} (b : bool) (t t' : kprog U A) (Q : A -> Prop) : Prop :=
    match t with
    | Ret a => t' = Ret a /\ Q a
    | Throw e => t' = Throw e
    | Stuck w => t' = Stuck w
    | Do o k => guar b o /\ exists k', t' = Do o k' /\ forall x, rely b o x -> sim (b || sets o) (k x) (k' x) Q
    end.
  Lemma known_mono b b' c' : (b = true -> b' = true) -> known b c' -> known b' c'.
  Proof. intros H [[X Y]|X]; [left|right]; auto. Qed.
  Lemma rely_mono b b' o x : (b = true -> b' = true) -> rely b' o x -> rely b o x.
  Proof. intros H. destruct o; cbn; auto. intros K N. apply K. eapply known_mono; eauto. Qed.
  Lemma loud_mono b b' : (b = true -> b' = true) -> loud b -> loud b'.
  Proof. unfold loud. intuition. Qed.
  Lemma guar_mono b b' o : (b = true -> b' = true) -> guar b o -> guar b' o.
  Proof. intros H. destruct o; cbn; auto; now apply loud_mono. Qed.
  Lemma sim_mono {A} (t : kprog U A) : forall b b' t' Q, (b = true -> b' = true) -> sim b t t' Q -> sim b' t t' Q.
  Proof.
    induction t as [a|e|w|o k IH]; intros b b' t' Q M H; cbn [sim] in *; auto.
    destruct H as (G & k' & -> & H). split; [eapply guar_mono; eauto|]. exists k'. split; auto. intros x Hx. eapply IH; [|apply H; eapply rely_mono; eauto].
    intros X. apply orb_true_iff in X as [X|X]; apply orb_true_iff; auto.
  Qed.
  Lemma sim_up {A} (t : kprog U A) b x t' Q : sim b t t' Q -> sim (b || x) t t' Q.
  Proof. apply sim_mono. intros ->. reflexivity. Qed.
  Lemma sim_bind {A B} (t t' : kprog U A) (f f' : A -> kprog U B) (Q : A -> Prop) R b :
    sim b t t' Q -> (forall a, Q a -> sim b (f a) (f' a) R) -> sim b (tbind t f) (tbind t' f') R.
  Proof.
    revert b t'. induction t as [a|e|w|o k IH]; intros b t' H K; cbn [sim] in H.
    - destruct H as [-> H]. cbn. auto.
    - subst. reflexivity.
    - subst. reflexivity.
    - destruct H as (G & k' & -> & H). cbn [tbind sim]. split; auto. eexists. split; [reflexivity|]. intros x Hx. apply IH; auto.
      intros a Ha. apply sim_up. auto.
  Qed.
  Lemma sim_catch {A} (t t' h h' : kprog U A) (Q : A -> Prop) b :
    sim b t t' Q -> sim b h h' Q -> sim b (catch_std t h) (catch_std t' h') Q.
  Proof.
    revert b t'. induction t as [a|e|w|o k IH]; intros b t' H K; cbn [sim] in H.
    - destruct H as [-> H]. cbn. auto.
    - subst. cbn. destruct (is_std e); [auto|reflexivity].
    - subst. reflexivity.
    - destruct H as (G & k' & -> & H). cbn [catch_std sim]. split; auto. eexists. split; [reflexivity|]. intros x Hx. apply IH; auto.
      apply sim_up. auto.
  Qed.
  Lemma sim_attempt {A} (t t' : kprog U A) (Q : A -> Prop) b :
    sim b t t' Q -> sim b (attempt t) (attempt t') (fun _ => True).
  Proof.
    revert b t'. induction t as [a|e|w|o k IH]; intros b t' H; cbn [sim] in H.
    - destruct H as [-> H]. cbn. auto.
    - subst. cbn. auto.
    - subst. reflexivity.
    - destruct H as (G & k' & -> & H). cbn [attempt sim]. split; auto. eexists. split; [reflexivity|]. intros x Hx. apply IH; auto.
  Qed.
  Lemma sim_weaken {A} (t : kprog U A) : forall b t' (Q R : A -> Prop), (forall a, Q a -> R a) -> sim b t t' Q -> sim b t t' R.
  Proof.
    induction t as [a|e|w|o k IH]; intros b t' Q R M H; cbn [sim] in *; auto.
    - destruct H; auto.
    - destruct H as (G & k' & -> & H). split; auto. exists k'. split; auto. intros x Hx. eauto.
  Qed.
  Lemma sim_kdo o b : guar b o -> sim b (kdo o) (kdo o) (rely b o).
  Proof. intros G. cbn. split; auto. eexists. split; [reflexivity|]. auto. Qed.
  Lemma sim_do {B} o (f f' : kans o -> kprog U B) (Q : B -> Prop) b :
    guar b o -> (forall x, rely b o x -> sim b (f x) (f' x) Q) -> sim b (tbind (kdo o) f) (tbind (kdo o) f') Q.
  Proof. intros G H. eapply sim_bind; [apply sim_kdo; auto|]. auto. Qed.
  Lemma sim_res {A} (r : res A) b : sim b (of_res r) (of_res r) (fun a => r = Ok a).
  Proof. destruct r; cbn; auto. Qed.
  Lemma sim_ofres {A B} (r : res A) (f f' : A -> kprog U B) (Q : B -> Prop) b :
    (forall a, r = Ok a -> sim b (f a) (f' a) Q) -> sim b (tbind (of_res r) f) (tbind (of_res r) f') Q.
  Proof. intros H. eapply sim_bind; [apply sim_res|]. auto. Qed.
  (** A program that sets no parent and reads no identities is like itself. *)
  Definition indifferent o : Prop := match o with KSetPid _ _ => False | _ => True end.
  Lemma sim_self {A} (t : kprog U A) b : loud b -> always indifferent t -> sim b t t (fun _ => True).
  Proof.
    revert b. induction t as [a|e|w|o k IH]; intros b L H; cbn [sim always] in *; auto. destruct H as [Ho Hk].
    split; [destruct o; cbn in *; tauto|]. exists k. split; auto. intros x _. apply IH; auto. eapply loud_mono; [|eauto]. intros ->. reflexivity.
  Qed.
  Lemma sim_sym {A} (t : kprog U A) : forall b t' (Q : A -> Prop), sim b t t' Q -> sim b t' t Q.
  Proof.
    induction t as [a|e|w|o k IH]; intros b t' Q H; cbn [sim] in H.
    - destruct H as [-> H]. cbn. auto.
    - now subst.
    - now subst.
    - destruct H as (G & k' & -> & H). cbn [sim]. split; auto. exists k. split; auto.
  Qed.

  (** ** The kernel *)
  Variable E : env U.
  Hypothesis HE : log_env E.
  Notation E0 := (unlogged E).
  Notation any := (fun _ => True).

  Lemma log_same {A} l (r : res A) (f : A -> kprog U unit) b (Q : unit -> Prop) : loggable l ->
    (~ Forall utf8_json (base_parts (logged_base l)) -> r = Exn type_error_316) ->
    (forall a, r = Ok a -> sim b (f a) (f a) Q) ->
    sim b (log E l ;;; a <-- of_res r ;; f a) (log E0 l ;;; a <-- of_res r ;; f a) Q.
  Proof.
    intros Hl Hr Hf. unfold log. cbn [unlogged with_logger e_logger of_res tbind].
    destruct (le_logger _ HE l Hl) as [->|(-> & N)]; cbn [of_res tbind].
    - now apply sim_ofres.
    - rewrite (Hr N). reflexivity.
  Qed.
  Lemma pub_strict m : ~ Forall utf8_json (base_parts (m_pbase m)) -> pub_serialize (e_crypto E) (e_auth E) (e_eh E) m = Exn type_error_316.
  Proof.
    intros N. rewrite (le_strict _ HE). unfold pub_serialize. destruct (base_serialize_strict (e_crypto E) (e_auth E) (m_pbase m)) as [X| ->]; auto.
    apply base_serialize_strict_ok in X. contradiction.
  Qed.
  Lemma msg_strict m : ~ Forall utf8_json (base_parts (m_base m)) -> serialize (e_crypto E) (e_auth E) (e_eh E) m = Exn type_error_316.
  Proof. intros N. rewrite (le_strict _ HE). now apply msg_serialize_strict. Qed.
  Lemma made_header i d ty u s : good_header (make_header i d ty u s).
  Proof. exists ty. rewrite make_header_sorted. eexists. split; [reflexivity|]. reflexivity. Qed.
  Lemma made_type i d ty u s : utf8_json (make_header i d ty u s) -> utf8_text ty.
  Proof.
    rewrite make_header_sorted. intros H. apply H. eapply (si_member _ _ "msg_type"); [|constructor]. cbn. auto.
  Qed.
  (** User code may ask for input only when the shell channel has a parent. *)
  Definition polite b {A} (t : ucode U A) : Prop := known b SHELL \/ always no_input t.
  Definition courteous b : Prop := known b SHELL \/ asks_nothing E.
  Section Loud.
  Variable b : bool.
  Hypothesis Hb : loud b.
  Lemma sim_emit e : sim b (emit e : kprog U unit) (emit e) any.
  Proof. apply (sim_self _ b Hb). cbn. auto. Qed.
  Lemma sim_header {B} ty (f f' : json -> kprog U B) (Q : B -> Prop) :
    (forall i d, sim b (f (make_header i d ty (e_user_name E) (e_session_id E))) (f' (make_header i d ty (e_user_name E) (e_session_id E))) Q) ->
    sim b (tbind (new_header E ty) f) (tbind (new_header E0 ty) f') Q.
  Proof.
    intros H. eapply sim_bind with (Q := fun h => exists i d, h = make_header i d ty (e_user_name E) (e_session_id E)).
    - cbn. split; auto. eexists. split; [reflexivity|]. intros n _. split; auto. eexists. split; [reflexivity|]. intros n' _. split; eauto.
    - intros h (i & d & ->). auto.
  Qed.
  Lemma sim_publish ty md ct bufs ch : sim b (publish_message E ty md ct bufs ch) (publish_message E0 ty md ct bufs ch) any.
  Proof.
    unfold publish_message. apply sim_header. intros i d. apply sim_do; [exact I|]. intros p _. cbv zeta. apply log_same.
    - split; cbn; [apply made_header|]. intros F. inversion_clear F as [|? ? F1 _]. cbn in F1. apply made_type in F1.
      change (utf8_text ("kernel_core." +++ e_kernel_id E +++ "." +++ ty)).
      apply utf8_app; [now apply is_utf8_valid_spec|]. apply utf8_app; [apply (le_id _ HE)|]. apply utf8_app; [now apply is_utf8_valid_spec|auto].
    - apply pub_strict.
    - intros w _. apply sim_emit.
  Qed.
  Lemma sim_reply_to ids ty ph md ct ch : ids <> [] -> sim b (send_reply_to E ids ty ph md ct ch) (send_reply_to E0 ids ty ph md ct ch) any.
  Proof.
    intros Hi. unfold send_reply_to. apply sim_header. intros i d. cbv zeta. apply log_same.
    - split; cbn; auto using made_header.
    - apply msg_strict.
    - intros w _. apply sim_emit.
  Qed.
  Lemma sim_reply ty md ct ch : known b ch -> sim b (send_reply E ty md ct ch) (send_reply E0 ty md ct ch) any.
  Proof.
    intros K. unfold send_reply. apply sim_do; [exact I|]. intros ids Hi. cbn in Hi. apply sim_do; [exact I|]. intros p _. apply sim_reply_to. auto.
  Qed.
  Lemma sim_look {A} (f : comms -> res A) : sim b (look_comms f : kprog U A) (look_comms f) any.
  Proof. apply (sim_self _ b Hb). cbn. split; auto. intros x. apply always_of_res. Qed.
  Lemma sim_with {A} (f : comms -> res (comms * A)) : sim b (with_comms f : kprog U A) (with_comms f) any.
  Proof. apply (sim_self _ b Hb). cbn. split; auto. intros x. apply always_bind; [apply always_of_res|]. intros r. cbn. auto. Qed.
  Lemma sim_lookb {A B} (f : comms -> res A) (g g' : A -> kprog U B) (Q : B -> Prop) :
    (forall a, sim b (g a) (g' a) Q) -> sim b (tbind (look_comms f) g) (tbind (look_comms f) g') Q.
  Proof. intros H. eapply sim_bind; [apply sim_look|]. auto. Qed.
  Lemma sim_withb {A B} (f : comms -> res (comms * A)) (g g' : A -> kprog U B) (Q : B -> Prop) :
    (forall a, sim b (g a) (g' a) Q) -> sim b (tbind (with_comms f) g) (tbind (with_comms f) g') Q.
  Proof. intros H. eapply sim_bind; [apply sim_with|]. auto. Qed.
  Lemma sim_target p ty md ct bufs : sim b (target_publish E p ty md ct bufs) (target_publish E0 p ty md ct bufs) any.
  Proof. unfold target_publish. apply sim_lookb. intros t. destruct (t_manager t); [apply sim_publish|reflexivity]. Qed.
  Lemma sim_api0 (o : uop0 U) : sim b (api0 E o) (api0 E0 o) any.
  Proof.
    destruct o; cbn [api0]; try apply sim_publish; try apply sim_with; try apply sim_look; try apply sim_target;
      try (apply (sim_self _ b Hb); cbn; auto; fail);
      try (apply (sim_self _ b Hb); cbn; split; auto; intros h; apply always_of_res);
      try (change (new_guid E0) with (new_guid E); eapply sim_bind with (Q := any); [apply (sim_self _ b Hb); cbn; auto|intros id _; apply sim_with]).
    - unfold comm_open_msg. do 2 (apply sim_lookb; intros ?). apply sim_target.
    - unfold comm_close_msg. apply sim_lookb; intros ?. apply sim_target.
    - unfold comm_send_msg. apply sim_lookb; intros ?. apply sim_target.
  Qed.
  Lemma sim_embed0 {A} (t : ucode0 U A) : sim b (embed0 E t) (embed0 E0 t) any.
  Proof.
    induction t as [a|e|w|o k IH]; cbn [embed0]; try (cbn; auto; fail).
    eapply sim_bind; [eapply sim_attempt, sim_api0|]. intros r _. apply IH.
  Qed.
  Lemma sim_input_reply v : sim b (input_reply E v) (input_reply E0 v) any.
  Proof.
    unfold input_reply. apply sim_do; [exact I|]. intros [[|n]|] _.
    - apply (sim_self _ b Hb). cbn. split; auto. intros [x|]; cbn; auto.
    - eapply sim_bind; [apply sim_emit|]. intros _ _. apply sim_embed0.
    - cbn. auto.
  Qed.
  Lemma accepted_loggable w m ch : regular E w -> accepted E w m -> e_logger E (LReceived m ch) = Ok tt.
  Proof.
    intros [Ha Ht] Hm. destruct (le_logger _ HE (LReceived m ch)) as [X|(X & N)]; auto.
    - split; cbn; [apply (Ht m Hm)|]. unfold accepted in Hm. apply deserialize_ok in Hm as (r & Hw & _). intros Hn. rewrite Hn in Hw. cbn in Hw. subst w.
      cbn in Ha. congruence.
    - exfalso. apply N. cbn. eapply accepted_utf8. exact Hm.
  Qed.
  Lemma sim_stdin ty md ct : known b SHELL -> sim b (send_stdin E ty md ct) (send_stdin E0 ty md ct) any.
  Proof.
    intros K. unfold send_stdin. apply sim_do; [exact I|]. intros ids Hi. cbn in Hi. apply sim_header. intros i d. apply sim_do; [exact I|]. intros p _. cbv zeta.
    set (m := {| m_ids := ids; m_base := _ |}).
    unfold log. cbn [unlogged with_logger e_logger of_res tbind].
    assert (loggable (LSent m None)) as Hl by (split; cbn; auto using made_header).
    destruct (le_logger _ HE _ Hl) as [->|(-> & N)]; cbn [of_res tbind].
    2: { cbn [logged_base] in N. change (e_crypto E0) with (e_crypto E). change (e_auth E0) with (e_auth E). change (e_eh E0) with (e_eh E).
         rewrite (msg_strict m N). reflexivity. }
    apply sim_ofres. intros w _. eapply sim_bind; [apply sim_emit|]. intros _ _. apply sim_do; [exact I|]. intros n _.
    change (e_stdin E0 n) with (e_stdin E n). unfold dispatch_stdin. apply sim_catch; [|cbn; auto].
    apply sim_ofres. intros x Hx. unfold log. rewrite (accepted_loggable _ x None (le_stdin _ HE n) Hx). cbn [unlogged with_logger e_logger of_res tbind].
    apply sim_ofres. intros v _. apply sim_input_reply.
  Qed.
  Lemma sim_blocking p pwd : known b SHELL -> sim b (blocking_input_request E p pwd) (blocking_input_request E0 p pwd) any.
  Proof.
    intros K. unfold blocking_input_request. do 2 (apply sim_do; [exact I|]; intros _ _).
    eapply sim_bind; [eapply sim_attempt; unfold input_request; apply sim_stdin; auto|]. intros [x|e] _; apply (sim_self _ b Hb); cbn; auto.
  Qed.
  Lemma sim_embed {A} (t : ucode U A) : polite b t -> sim b (embed E t) (embed E0 t) any.
  Proof.
    induction t as [a|e|w|o k IH]; intros P; cbn [embed]; try (cbn; auto; fail).
    eapply sim_bind with (Q := any).
    - eapply sim_attempt with (Q := any). destruct o as [o|p pwd|p pwd]; cbn [api1]; [apply sim_api0| |];
        (destruct P as [P|[P _]]; [|cbn in P; contradiction]); [unfold input_request; now apply sim_stdin|now apply sim_blocking].
    - intros r _. apply IH. destruct P as [P|[_ P]]; [left; auto|right; auto].
  Qed.
  Lemma sim_interp r : courteous b -> sim b (interp E r) (interp E0 r) any.
  Proof.
    intros C. unfold interp. eapply sim_bind; [apply sim_emit|]. intros _ _. apply sim_embed. destruct C as [C|C]; [left; auto|right; apply (ua_interp _ _ _ C)].
  Qed.
  Lemma sim_internal w : courteous b -> sim b (dispatch_internal E w) (dispatch_internal E0 w) any.
  Proof.
    intros C. unfold dispatch_internal. do 2 (apply sim_ofres; intros ? _). eapply sim_bind; [apply sim_interp; auto|]. intros r _.
    apply sim_ofres; intros ? _. cbn. auto.
  Qed.
  Lemma sim_embed2 {A} (t : ucode2 U A) : courteous b -> known b SHELL \/ always (up2 no_input) t -> sim b (embed2 E t) (embed2 E0 t) any.
  Proof.
    induction t as [a|e|w|o k IH]; intros C P; cbn [embed2]; try (cbn; auto; fail).
    eapply sim_bind with (Q := any).
    - eapply sim_attempt with (Q := any). destruct o as [[o|p pwd|p pwd]|j]; cbn [api2 api1]; [apply sim_api0| | |].
      + destruct P as [P|[P _]]; [|cbn in P; contradiction]. unfold input_request. now apply sim_stdin.
      + destruct P as [P|[P _]]; [|cbn in P; contradiction]. now apply sim_blocking.
      + unfold send_to_shell. apply sim_ofres; intros ? _. eapply sim_bind with (Q := any).
        * change (e_split E0) with (e_split E). destruct (e_split E); [apply (sim_self _ b Hb); cbn; auto|apply sim_internal; auto].
        * intros ? _. apply sim_ofres; intros ? _. apply (sim_self _ b Hb); apply always_of_res.
    - intros r _. apply IH; auto. destruct P as [P|[_ P]]; [left; auto|right; auto].
  Qed.

  Lemma accepted_ids w m : addressed w -> accepted E w m -> m_ids m <> [].
  Proof.
    intros Ha Hm. unfold accepted in Hm. apply deserialize_ok in Hm as (r & Hw & _). intros Hn. rewrite Hn in Hw. cbn in Hw. subst w. cbn in Ha. congruence.
  Qed.
  Lemma sim_take {B} w (f f' : option xmessage -> kprog U B) (Q : B -> Prop) :
    sim b (f None) (f' None) Q -> (forall m, accepted E w m -> sim b (f (Some m)) (f' (Some m)) Q) ->
    sim b (tbind (catch_std (m <-- of_res (deserialize (e_crypto E) (e_auth E) w) ;; Ret (Some m)) (Ret None)) f)
          (tbind (catch_std (m <-- of_res (deserialize (e_crypto E0) (e_auth E0) w) ;; Ret (Some m)) (Ret None)) f') Q.
  Proof.
    intros H1 H2. change (e_crypto E0) with (e_crypto E). change (e_auth E0) with (e_auth E).
    destruct (deserialize (e_crypto E) (e_auth E) w) as [m|[s|s]|u] eqn:D; cbn [of_res tbind catch_std is_std]; auto; reflexivity.
  Qed.
  Lemma sim_abort_request w : addressed w -> sim b (abort_request E w) (abort_request E0 w) any.
  Proof.
    intros Ha. unfold abort_request. apply sim_take; [cbn; auto|]. intros m Hm. cbv zeta. do 2 (apply sim_ofres; intros ? _).
    apply sim_reply_to. eapply accepted_ids; eauto.
  Qed.
  Lemma sim_abort_loop n : sim b (abort_loop E n) (abort_loop E0 n) any.
  Proof.
    induction n as [|n IH]; cbn [abort_loop]; [cbn; auto|]. apply sim_do; [exact I|]. intros [w|] Hw; cbn in Hw; [|cbn; auto].
    eapply sim_bind; [apply sim_abort_request; auto|]. auto.
  Qed.
  Lemma sim_abort : sim b (abort_queue E) (abort_queue E0) any.
  Proof. unfold abort_queue. apply sim_do; [exact I|]. intros n _. apply sim_abort_loop. Qed.

  Lemma sim_guard (t : kprog U unit) (x : bool) : sim b t t any -> sim b (if x then t else Ret tt) (if x then t else Ret tt) any.
  Proof. destruct x; cbn; auto. Qed.
  Ltac step :=
    lazymatch goal with
    | |- sim _ (tbind (of_res _) _) _ _ => apply sim_ofres; intros ? _
    | |- sim _ (tbind (look_comms _) _) _ _ => apply sim_lookb; intros ?
    | |- sim _ (tbind (with_comms _) _) _ _ => apply sim_withb; intros ?
    | |- sim _ (tbind (kdo _) _) _ _ => apply sim_do; [exact I|]; intros ? _
    end.
  Lemma sim_metadata {B} (f f' : json -> kprog U B) Q : (forall j, sim b (f j) (f' j) Q) -> sim b (tbind (get_metadata E) f) (tbind (get_metadata E0) f') Q.
  Proof. intros H. eapply sim_bind with (Q := any); [apply (sim_self _ b Hb); cbn; auto|]. auto. Qed.
  Lemma sim_execute m : courteous b -> known b c -> sim b (execute_request E m c) (execute_request E0 m c) any.
  Proof.
    intros C K. unfold execute_request. apply sim_catch; [|cbn; auto]. cbv zeta. repeat step. apply sim_metadata. intros md.
    eapply sim_bind with (Q := any).
    - unfold interp_execute. eapply sim_bind with (Q := any).
      + match goal with |- context [if ?x then _ else _] => destruct x end; [cbn; auto|]. step.
        match goal with |- context [if ?x then _ else _] => destruct x end; [reflexivity|]. step. apply sim_publish.
      + intros _ _. step. eapply sim_bind; [apply sim_interp; auto|]. intros r _. step. apply (sim_self _ b Hb); apply always_of_res.
    - intros r _. step. eapply sim_bind; [apply sim_reply; auto|]. intros _ _. eapply sim_bind with (Q := any).
      + apply sim_guard. apply (sim_self _ b Hb). cbn. auto.
      + intros _ _. match goal with |- context [if ?x then _ else _] => destruct x end; [apply sim_abort|cbn; auto].
  Qed.
  Lemma sim_run_handler h m : courteous b -> sim b (run_handler E h m) (run_handler E0 h m) any.
  Proof.
    intros C. destruct h as [n|]; cbn [run_handler]; [|cbn; auto]. eapply sim_bind; [apply sim_emit|]. intros _ _. apply sim_embed.
    destruct C as [C|C]; [left; auto|right; apply (ua_handler _ _ _ C)].
  Qed.
  Lemma sim_run_callback cb a m : courteous b -> sim b (run_callback E cb a m) (run_callback E0 cb a m) any.
  Proof.
    intros C. destruct cb as [n|]; cbn [run_callback]; [|reflexivity]. eapply sim_bind; [apply sim_emit|]. intros _ _. apply sim_embed.
    destruct C as [C|C]; [left; auto|right; apply (ua_callback _ _ _ C)].
  Qed.
  Lemma sim_handler ty m : courteous b -> known b c ->
    match mfind ty (handlers E), mfind ty (handlers E0) with
    | Some h, Some h' => sim b (h m c) (h' m c) any
    | None, None => True
    | _, _ => False
    end.
  Proof.
    intros C K. unfold handlers. cbn [mfind].
    repeat match goal with |- context [String.eqb ty ?x] => destruct (String.eqb ty x) end; auto.
    - now apply sim_execute.
    - unfold complete_request. cbv zeta. repeat step. eapply sim_bind; [apply sim_interp; auto|]. intros r _. apply sim_reply; auto.
    - unfold inspect_request. cbv zeta. repeat step. eapply sim_bind; [apply sim_interp; auto|]. intros r _. apply sim_reply; auto.
    - unfold history_request. repeat step. apply sim_reply; auto.
    - unfold is_complete_request. repeat step. eapply sim_bind; [apply sim_interp; auto|]. intros r _. apply sim_reply; auto.
    - unfold comm_info_request. cbv zeta. repeat step. apply sim_reply; auto.
    - unfold comm_open. cbv zeta. do 2 step. match goal with |- context [match ?x with Some _ => _ | None => _ end] => destruct x as [[p t]|] end; [|reflexivity].
      do 2 step. eapply sim_bind; [eapply sim_attempt, sim_run_callback; auto|]. intros r _. step. destruct r; cbn; auto.
    - unfold comm_close. do 2 step. match goal with |- context [match ?x with Some _ => _ | None => _ end] => destruct x as [adr|] end; [|match goal with |- sim _ (of_res ?r) (of_res ?r2) _ => change r2 with r; destruct r; cbn; auto end].
      step. eapply sim_bind; [apply sim_run_handler; auto|]. intros _ _. apply sim_with.
    - unfold comm_msg. do 2 step. match goal with |- context [match ?x with Some _ => _ | None => _ end] => destruct x as [adr|] end; [|match goal with |- sim _ (of_res ?r) (of_res ?r2) _ => change r2 with r; destruct r; cbn; auto end].
      step. apply sim_run_handler; auto.
    - unfold kernel_info_request. eapply sim_bind; [apply sim_interp; auto|]. intros r _. step. apply sim_reply; auto.
    - unfold shutdown_request. step. eapply sim_bind; [apply sim_interp; auto|]. intros r _. eapply sim_bind; [apply sim_emit|]. intros _ _. cbv zeta.
      eapply sim_bind; [apply sim_publish|]. intros _ _. apply sim_reply; auto.
    - unfold interrupt_request. eapply sim_bind; [apply sim_publish|]. intros _ _. apply sim_reply; auto.
    - unfold debug_request. change (e_debugger E0) with (e_debugger E). destruct (e_debugger E) as [dbg|] eqn:D; [|cbn; auto]. cbv zeta.
      eapply sim_bind; [apply sim_emit|]. intros _ _. eapply sim_bind.
      + apply sim_embed2; auto. destruct C as [C|C]; [left; auto|right]. pose proof (ua_debugger _ _ _ C) as X. rewrite D in X. apply X.
      + intros r _. apply sim_metadata. intros md. apply sim_reply; auto.
  Qed.
  End Loud.
  Definition willing : Prop := c = SHELL \/ asks \/ asks_nothing E.
  Lemma sim_dispatch w : willing -> regular E w -> sim false (dispatch E w c) (dispatch E0 w c) any.
  Proof.
    intros W R. unfold dispatch. apply sim_take; [cbn; auto|]. intros m Hm. unfold log at 1. rewrite (accepted_loggable w m _ R Hm).
    unfold log at 1. cbn [unlogged with_logger e_logger of_res tbind]. cbv zeta.
    assert (known true c) as K by (left; auto).
    assert (loud true) as Lt by (left; auto).
    assert (courteous true) as C by (destruct W as [W|[W|W]]; [left; left; auto|left; right; auto|right; auto]).
    unfold set_parent. cbn [tbind kdo perform sim]. split; [split; [auto|]; eapply accepted_ids; [apply R|eauto]|]. eexists. split; [reflexivity|]. intros ? _.
    cbn [orb sets]. assert (chan_eqb c c = true) as -> by (case c; reflexivity). split; [exact I|]. eexists. split; [reflexivity|]. intros ? _. cbn [orb sets].
    eapply sim_bind; [apply (sim_publish true Lt)|]. intros _ _. apply sim_ofres. intros ty _. eapply sim_bind with (Q := any).
    - unfold handle. pose proof (sim_handler true Lt ty m C K) as H. destruct (mfind ty (handlers E)), (mfind ty (handlers E0)); try contradiction; [|cbn; auto].
      apply sim_catch; auto. apply (sim_self _ true Lt). apply always_bind; [apply always_of_res|]. intros _. exact I.
    - intros _ _. apply (sim_publish true Lt).
  Qed.
End Sim.

(** ** Sequential execution *)
Section Run.
  Context {U : Type}.
  Variables (c : channel) (asks free : Prop).
  Implicit Types (s : kstate U).
  Definition seq_inv b s : Prop := (forall c', known c asks b c' -> k_pid s c' <> []) /\ pending_ok (k_shell s).
  Lemma pid_step b (o : kop U) s : (forall c', known c asks b c' -> k_pid s c' <> []) -> guar c asks free b o ->
    forall c', known c asks (b || sets c o) c' -> k_pid (fst (kstep o s)) c' <> [].
  Proof.
    intros H G c' K. destruct o; cbn [sets] in K; rewrite ?orb_false_r in K; try (cbn; apply H, K);
      try (cbn; destruct (k_shell s); cbn; apply H, K); try (cbn; destruct (k_replies s); cbn; apply H, K).
    cbn [guar] in G. destruct G as [-> G]. cbn. unfold upd_chan. destruct (chan_eqb c c') eqn:X; auto. apply H.
    destruct K as [[_ K]|K]; [|now right]. subst. destruct c; discriminate.
  Qed.
  Lemma step_inv b (o : kop U) s : seq_inv b s -> guar c asks free b o ->
    rely c asks b o (snd (kstep o s)) /\ seq_inv (b || sets c o) (fst (kstep o s)).
  Proof.
    intros [P Q] G. split.
    - destruct o; cbn [rely kstep snd]; auto. destruct (k_shell s) as [|x q]; cbn [snd]; auto. now inversion_clear Q.
    - split; [now apply pid_step|]. destruct o; cbn; auto.
      + unfold pending_ok in *. destruct (k_shell s) eqn:X; cbn; [now rewrite X|]. now inversion_clear Q.
      + destruct (k_replies s); cbn; auto.
  Qed.
  Lemma sim_run {A} (t : kprog U A) : forall b t' Q s, sim c asks free b t t' Q -> seq_inv b s -> run t s = run t' s.
  Proof.
    unfold run. induction t as [a|e|w|o k IH]; intros b t' Q s H Hi; cbn [sim] in H.
    - destruct H as [-> _]. reflexivity.
    - now subst.
    - now subst.
    - destruct H as (G & k' & -> & H). cbn [exec]. destruct (step_inv b o s Hi G) as [Hr Hn]. destruct (kstep o s) as [s' x]. cbn [fst snd] in *. eapply IH; eauto.
  Qed.
End Run.
