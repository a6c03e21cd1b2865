(** The split servers: the events of each thread, message by message. *)
From Verif Require Import Base BaseFacts Json JsonText Utf8 Auth Message WireSpec History Comm Tree Kernel KernelSpec KernelRun KernelExec KernelLemmas Server Split SplitSpec Threads SplitProofs SequentialSpec SplitStreamSpec.

(** ** One thread, with an invariant of its ghost state *)
Section Keep.
  Context {U : Type} (c : channel) (S : ghost -> Prop).
  Implicit Types (g : ghost).
  Definition own (o : kop U) : Prop := match o with KSetPid c' _ | KSetPhdr c' _ => c' = c | _ => True end.
  Fixpoint rgs {A} (g : ghost) (p : kprog U A) (Q : ghost -> A -> Prop) (X : ghost -> Prop) : Prop :=
    S g /\
    match p with
    | Ret a => Q g a
    | Throw _ => X g
    | Stuck _ => True
    | Do o k => own o /\ forall x, heard c o x g -> rgs (learn o x g) (k x) Q X
    end.
  Lemma rgs_now {A} g (p : kprog U A) Q X : rgs g p Q X -> S g.
  Proof. destruct p; cbn; tauto. Qed.
  Lemma rgs_impl {A} g (p : kprog U A) (Q Q' : ghost -> A -> Prop) (X X' : ghost -> Prop) :
    rgs g p Q X -> (forall g a, Q g a -> Q' g a) -> (forall g, X g -> X' g) -> rgs g p Q' X'.
  Proof.
    revert g; induction p as [a|e|w|o k IH]; intros g [HS H] HQ HX; (split; [exact HS|]); auto. destruct H as [Hm H]. split; [exact Hm|].
    intros x Hx. apply IH; auto.
  Qed.
  Lemma rgs_bind {A B} g (p : kprog U A) (f : A -> kprog U B) Q R X :
    rgs g p Q X -> (forall g a, S g -> Q g a -> rgs g (f a) R X) -> rgs g (tbind p f) R X.
  Proof.
    revert g; induction p as [a|e|w|o k IH]; intros g [HS H] Hf; cbn [tbind]; [auto|split; auto..].
    destruct H as [Hm H]. split; [exact Hm|]. intros x Hx. apply IH; auto.
  Qed.
  Lemma rgs_catch {A} g (p h : kprog U A) Q (X Y : ghost -> Prop) :
    rgs g p Q Y -> (forall g, S g -> Y g -> rgs g h Q X) -> (forall g, Y g -> X g) -> rgs g (catch_std p h) Q X.
  Proof.
    revert g; induction p as [a|e|w|o k IH]; intros g [HS H] Hf HX; cbn [catch_std]; try (split; auto; fail).
    - destruct (is_std e); [auto|split; auto].
    - destruct H as [Hm H]. split; [exact HS|]. split; [exact Hm|]. intros x Hx. apply IH; auto.
  Qed.
  Lemma rgs_attempt {A} g (p : kprog U A) (Q : ghost -> A + exn -> Prop) (X Y : ghost -> Prop) :
    rgs g p (fun g a => Q g (inl a)) Y -> (forall g e, Y g -> Q g (inr e)) -> rgs g (attempt p) Q X.
  Proof.
    revert g; induction p as [a|e|w|o k IH]; intros g [HS H] HY; cbn [attempt]; try (split; auto; fail).
    destruct H as [Hm H]. split; [exact HS|]. split; [exact Hm|]. intros x Hx. apply IH; auto.
  Qed.
  Lemma rgs_res {A} g (r : res A) (Q : ghost -> A -> Prop) (X : ghost -> Prop) :
    S g -> (forall a, r = Ok a -> Q g a) -> X g -> rgs g (of_res r) Q X.
  Proof. destruct r; cbn; auto. Qed.

  (** Programs that keep a property of the ghost state. *)
  Variable R : ghost -> Prop.
  Hypothesis HR : forall g, R g -> S g.
  Definition calm {A} (p : kprog U A) : Prop := forall g, R g -> rgs g p (fun g _ => R g) R.
  Lemma calm_ret {A} (a : A) : calm (Ret a).
  Proof. intros g H. cbn; auto. Qed.
  Lemma calm_throw {A} e : calm (Throw e : kprog U A).
  Proof. intros g H. cbn; auto. Qed.
  Lemma calm_stuck {A} w : calm (Stuck w : kprog U A).
  Proof. intros g H. cbn; auto. Qed.
  Lemma calm_res {A} (r : res A) : calm (of_res r).
  Proof. intros g H. apply rgs_res; auto. Qed.
  Lemma calm_bind {A B} (p : kprog U A) (f : A -> kprog U B) : calm p -> (forall a, calm (f a)) -> calm (tbind p f).
  Proof. intros Hp Hf g H. eapply rgs_bind; [apply Hp, H|]. intros; now apply Hf. Qed.
  Lemma calm_catch {A} (p h : kprog U A) : calm p -> calm h -> calm (catch_std p h).
  Proof. intros Hp Hf g H. eapply rgs_catch; [apply Hp, H| |auto]. intros; now apply Hf. Qed.
  Lemma calm_attempt {A} (p : kprog U A) : calm p -> calm (attempt p).
  Proof. intros Hp g H. eapply rgs_attempt; [apply Hp, H|]. auto. Qed.
  Lemma calm_silent o : own o -> (forall x g, learn o x g = g) -> calm (kdo o).
  Proof. intros H1 H2 g H. split; auto. split; auto. intros x _. cbn. rewrite H2. auto. Qed.
End Keep.

(** ** The kernel's programs *)
Section Programs.
  Context {U : Type} (E : env U) (raw : string -> Prop) (HU : user_publishes E raw) (Hraw : ~ raw "status").
  Context (c : channel) (m : xmessage) (S : ghost -> Prop).
  (** The parent of [m] is recorded; the events since [b] are [inner]. *)
  Definition parent (g : ghost) : Prop := g_pid g = Some (m_ids m) /\ g_phdr g = Some (m_header (m_base m)).
  Definition after (out : list event) (g : ghost) : Prop :=
    parent g /\ g_took g = [] /\ exists evs, g_out g = (evs ++ out)%list /\ Forall (inner E c m) evs.
  Context (out : list event) (HS : forall g, after out g -> S g).
  Notation K := (calm (U := U) c S (after out)).

  Lemma after_emit e g : after out g -> inner E c m e -> after out (learn (U := U) (KEmit e) tt g).
  Proof. intros (A & B & evs & C & D) He. split; auto. split; auto. exists (e :: evs). cbn. rewrite C. auto. Qed.
  Lemma calm_emit e : inner E c m e -> K (emit e).
  Proof.
    intros He g H. split; auto. split; [exact I|]. intros [] _. pose proof (after_emit e g H He) as H'. cbn in *. auto.
  Qed.
  Lemma calm_mark e : (match e with EPublish _ _ _ | ESend _ _ _ | EStdin _ _ => False | _ => True end) -> K (emit e).
  Proof.
    intros He. apply calm_emit. destruct e; try contradiction; (split; [exact I|split; [|split; [|exact I]]]); intros (? & ? & ? & Hx); intuition discriminate.
  Qed.
  Ltac gq := match goal with |- calm _ _ _ (kdo ?o) => refine (calm_silent c S _ HS o _ _); [intros; exact I | reflexivity] end.
  Ltac gb := apply calm_bind; [|intros].
  Lemma q_ret {A} (a : A) : K (Ret a). Proof. now apply calm_ret. Qed.
  Lemma q_throw {A} e : K (Throw e : kprog U A). Proof. now apply calm_throw. Qed.
  Lemma q_stuck {A} w : K (Stuck w : kprog U A). Proof. now apply calm_stuck. Qed.
  Lemma q_res {A} (r : res A) : K (of_res r). Proof. now apply calm_res. Qed.
  Lemma q_guid : K (new_guid E).
  Proof. unfold new_guid. gb; [gq | apply q_ret]. Qed.
  Lemma q_now : K (now E).
  Proof. unfold now. gb; [gq | apply q_ret]. Qed.
  (** The header of a new message. *)
  Lemma q_header {A} ty (f : json -> kprog U A) :
    (forall h id, header_with h id ty (e_user_name E) (e_session_id E) -> sfield "msg_type" h = Some ty -> K (f h)) -> K (tbind (new_header E ty) f).
  Proof.
    intros Hf g H. unfold new_header, new_guid, now, kdo, perform. cbn [tbind]. split; auto. split; [exact I|]. intros n1 _. cbn [learn tbind].
    split; auto. split; [exact I|]. intros n2 _. cbn [learn tbind]. apply (Hf _ (e_guid E n1)); [apply header_with_make | reflexivity | exact H].
  Qed.
  Lemma q_pid c' {A} (f : list string -> kprog U A) : (forall ids, (c' = c -> ids = m_ids m) -> K (f ids)) -> K (tbind (kdo (KPid c')) f).
  Proof.
    intros Hf g H. unfold kdo, perform. cbn [tbind]. split; auto. split; [exact I|]. intros ids Hi. cbn [learn].
    apply Hf; auto. intros Hc. exact (Hi Hc _ (proj1 (proj1 H))).
  Qed.
  Lemma q_phdr c' {A} (f : json -> kprog U A) : (forall h, (c' = c -> h = m_header (m_base m)) -> K (f h)) -> K (tbind (kdo (KPhdr c')) f).
  Proof.
    intros Hf g H. unfold kdo, perform. cbn [tbind]. split; auto. split; [exact I|]. intros ids Hi. cbn [learn].
    apply Hf; auto. intros Hc. exact (Hi Hc _ (proj2 (proj1 H))).
  Qed.
  Lemma q_sent {A B} (r : res A) (f : A -> kprog U B) : (forall a, r = Ok a -> K (f a)) -> K (tbind (of_res r) f).
  Proof. intros Hf. destruct r; cbn [of_res tbind]; [now apply Hf | apply q_throw | apply q_stuck]. Qed.
  Lemma q_publish ty md ct bufs c' : ty <> "status" -> c' = SHELL \/ In ty control_types -> K (publish_message E ty md ct bufs c').
  Proof.
    intros Hty Hc. unfold publish_message. apply q_header. intros h id Hh Ht. apply q_phdr. intros p Hp. cbv zeta. unfold log. gb; [apply q_res|].
    apply q_sent. intros w Hw. apply calm_emit. split; [exact Hw|]. split; [|split].
    - intros (? & ? & ? & [= <- <- <-] & Hx). cbn in Hx. unfold pub_type in Hx. cbn in Hx. congruence.
    - intros (? & ? & ? & [=]).
    - cbn. eauto.
  Qed.
  Lemma q_look {A} (f : comms -> res A) : K (look_comms f).
  Proof. unfold look_comms. gb; [gq | apply q_res]. Qed.
  Lemma q_with {A} (f : comms -> res (comms * A)) : K (with_comms f).
  Proof. unfold with_comms. gb; [gq|]. gb; [apply q_res|]. gb; [gq | apply q_ret]. Qed.
  Lemma raw_status ty : raw ty -> ty <> "status".
  Proof. intros H ->. auto. Qed.
  Lemma q_target p ty md ct bufs : raw ty -> K (target_publish E p ty md ct bufs).
  Proof. intros H. unfold target_publish. gb; [apply q_look|]. destruct (t_manager a); [apply q_publish; [now apply raw_status|now left] | apply q_stuck]. Qed.
  Hint Resolve q_ret q_throw q_stuck q_res q_guid q_now q_publish q_look q_with q_target raw_status : kd.
  Hint Extern 1 (_ \/ In _ control_types) => first [left; reflexivity | right; cbn; tauto] : kd.
  Ltac kd := repeat first [ solve [auto with kd] | gq | gb | apply calm_mark; exact I | apply calm_catch | apply calm_attempt ].
  Lemma q_api0 o : op_allowed0 raw o -> K (api0 E o).
  Proof.
    unfold op_allowed0. intros Ho.
    destruct o; cbn [api0 op_type] in *; unfold publish_execution_input, comm_open_msg, comm_close_msg, comm_send_msg; kd.
  Qed.
  Lemma q_embed0 {A} (t : ucode0 U A) : always (op_allowed0 raw) t -> K (embed0 E t).
  Proof. induction t as [a|e|w|o k IH]; cbn [embed0 always]; intros H; try solve [auto with kd]. destruct H as [H H']. apply calm_bind; [apply calm_attempt; now apply q_api0|auto]. Qed.
  Lemma q_input_reply v : K (input_reply E v).
  Proof. unfold input_reply. kd. destruct a as [[|n]|]; kd; [destruct a; kd|]. apply q_embed0. apply (ua_input E _ _ HU). Qed.
  Hint Resolve q_input_reply : kd.
  Lemma q_stdin w : K (dispatch_stdin E w).
  Proof. unfold dispatch_stdin, log. kd. Qed.
  Hint Resolve q_stdin : kd.
  Lemma q_send_stdin ty md ct : K (send_stdin E ty md ct).
  Proof.
    unfold send_stdin. apply q_pid. intros ids Hids. apply q_header. intros h id Hh Ht. apply q_phdr. intros p Hp. cbv zeta.
    unfold log. gb; [apply q_res|]. apply q_sent. intros w Hw. gb; [|kd].
    apply calm_emit. split; [exact Hw|]. split; [|split]; try (intros (? & ? & ? & [= ]); fail).
    - intros (? & ? & ? & [=] & _).
    - cbn. intros ->. auto.
  Qed.
  Hint Resolve q_send_stdin : kd.
  Lemma q_api1 o : op_allowed raw o -> K (api1 E o).
  Proof.
    destruct o; cbn [api1 op_allowed]; intros Ho; unfold blocking_input_request, input_request; [exact (q_api0 o Ho)| |]; kd.
    match goal with |- context [match ?x with inl _ => _ | inr _ => _ end] => destruct x end; kd.
  Qed.
  Lemma q_embed {A} (t : ucode U A) : always (op_allowed raw) t -> K (embed E t).
  Proof. induction t as [a|e|w|o k IH]; cbn [embed always]; intros H; try solve [auto with kd]. destruct H as [H H']. apply calm_bind; [apply calm_attempt; now apply q_api1|auto]. Qed.
  Lemma q_interp r : K (interp E r).
  Proof. unfold interp. kd. apply q_embed. apply (ua_interp E _ _ HU). Qed.
  Hint Resolve q_interp : kd.
  Lemma q_internal w : K (dispatch_internal E w).
  Proof. unfold dispatch_internal. kd. Qed.
  Hint Resolve q_internal : kd.
  Lemma q_api2 o : up2 (op_allowed raw) o -> K (api2 E o).
  Proof. destruct o; cbn [api2 up2]; intros Ho; [exact (q_api1 o Ho)|]; unfold send_to_shell. kd. destruct (e_split E); kd. Qed.
  Lemma q_embed2 {A} (t : ucode2 U A) : always (up2 (op_allowed raw)) t -> K (embed2 E t).
  Proof. induction t as [a|e|w|o k IH]; cbn [embed2 always]; intros H; try solve [auto with kd]. destruct H as [H H']. apply calm_bind; [apply calm_attempt; now apply q_api2|auto]. Qed.

  (** The reply, and what follows it. *)
  Variable ty : string.
  Variable HS2 : forall g evs rep ab ws, parent g -> g_out g = (rev ab ++ rep :: evs ++ out)%list ->
    Forall (inner E c m) evs -> well_sent E rep -> routed E c (m_ids m) (m_header (m_base m)) ty rep ->
    aborted E ws ab -> (g_took g = rev ws \/ exists x, g_took g = x :: rev ws) -> (g_took g <> [] -> ty = "execute_request") -> S g.
  Definition replied (part : bool) (g : ghost) : Prop :=
    exists evs rep ab ws, parent g /\ g_out g = (rev ab ++ rep :: evs ++ out)%list /\
      Forall (inner E c m) evs /\ well_sent E rep /\ routed E c (m_ids m) (m_header (m_base m)) ty rep /\
      aborted E ws ab /\ (g_took g = rev ws \/ part = true /\ exists x, g_took g = x :: rev ws) /\ (g_took g <> [] -> ty = "execute_request").
  Lemma replied_S b g : replied b g -> S g.
  Proof. intros (evs & rep & ab & ws & A & B & C & D & F & G & H & I). eapply HS2; eauto. destruct H as [H|[_ H]]; auto. Qed.
  Lemma replied_part g : replied false g -> replied true g.
  Proof. intros (evs & rep & ab & ws & A & B & C & D & F & G & H & I). exists evs, rep, ab, ws. repeat split; try apply A; auto. destruct H as [H|[H _]]; auto; discriminate. Qed.
  Lemma rgs_reply rty md ct g : reply_name ty rty -> after out g -> rgs c S g (send_reply E rty md ct c) (fun g _ => replied false g) (after out).
  Proof.
    intros Hn H. unfold send_reply, kdo, perform. cbn [tbind rgs]. split; [auto|]. split; [exact I|]. intros ids Hi. cbn [learn].
    split; [auto|]. split; [exact I|]. intros ph Hp. cbn [learn]. destruct H as ((H1 & H2) & H3 & evs & H4 & H5).
    rewrite (Hi eq_refl _ H1), (Hp eq_refl _ H2).
    assert (H : after out g) by (split; [split; auto|]; split; auto; exists evs; auto).
    unfold send_reply_to, new_header, new_guid, now, kdo, perform. cbn [tbind rgs]. split; [auto|]. split; [exact I|]. intros n1 _. cbn [learn tbind rgs].
    split; [auto|]. split; [exact I|]. intros n2 _. cbn [learn tbind rgs]. cbv zeta. unfold log. destruct (e_logger E _); cbn [of_res tbind]; [|split; auto..].
    match goal with |- context [serialize ?a ?b ?d ?x] => destruct (serialize a b d x) as [f|e|] eqn:Hf end; cbn [of_res tbind]; [|split; auto..].
    unfold emit, kdo, perform. cbn [tbind rgs]. split; [auto|]. split; [exact I|]. intros [] _. cbn [learn].
    set (e := ESend c _ f) in *.
    assert (HR : replied false {| g_pid := g_pid g; g_phdr := g_phdr g; g_took := g_took g; g_out := e :: g_out g |}).
    { exists evs, e, [], []. split; [split; auto|]. split; [cbn; now rewrite H4|]. split; auto. split; [exact Hf|]. split.
      - eexists _, _, _, _. split; [reflexivity|]. split; [exact Hn|]. cbn [m_ids m_base m_parent_header m_header m_buffers]. split; auto. split; auto. split; [apply header_with_make|reflexivity].
      - split; [constructor|]. cbn. rewrite H3. split; auto. congruence. }
    split; [exact (replied_S _ _ HR) | exact HR].
  Qed.
  Lemma rgs_abort_request g w ws x : ty = "execute_request" ->
    (exists evs rep ab, parent g /\ g_out g = (rev ab ++ rep :: evs ++ out)%list /\
      Forall (inner E c m) evs /\ well_sent E rep /\ routed E c (m_ids m) (m_header (m_base m)) ty rep /\ aborted E ws ab) ->
    x = w -> g_took g = x :: rev ws -> rgs c S g (abort_request E w) (fun g _ => replied false g) (replied true).
  Proof.
    intros Hex (evs & rep & ab & A & B & C & D & F & G) -> Ht.
    assert (AR : forall ws1 ab1 ws2 ab2, aborted E ws1 ab1 -> aborted E ws2 ab2 -> aborted E (ws1 ++ ws2) (ab1 ++ ab2)).
    { induction 1; intros; cbn; auto; [apply ad_skip; auto | eapply ad_reply; eauto]. }
    assert (RT : replied true g).
    { exists evs, rep, ab, ws. split; auto. split; auto. split; auto. split; auto. split; auto. split; auto. split; eauto. }
    assert (HSg : S g) by (eapply replied_S; eauto).
    unfold abort_request. destruct (deserialize (e_crypto E) (e_auth E) w) as [m'|e|] eqn:Hd; cbn [of_res tbind catch_std].
    - cbv zeta. destruct (value_string "msg_type" "" (m_header (m_base m'))) as [ty'|e|] eqn:Hv; cbn [of_res tbind]; [|split; auto..].
      destruct (reply_type_of ty') as [rty|e|] eqn:Hr; cbn [of_res tbind]; [|split; auto..].
      unfold send_reply_to, new_header, new_guid, now, kdo, perform. cbn [tbind rgs]. split; [auto|]. split; [exact I|]. intros n1 _. cbn [learn tbind rgs].
      split; [auto|]. split; [exact I|]. intros n2 _. cbn [learn tbind rgs]. cbv zeta. unfold log. destruct (e_logger E _); cbn [of_res tbind]; [|split; auto..].
      match goal with |- context [serialize ?a ?b ?d ?x] => destruct (serialize a b d x) as [f|e|] eqn:Hf end; cbn [of_res tbind]; [|split; auto..].
      unfold emit, kdo, perform. cbn [tbind rgs]. split; [auto|]. split; [exact I|]. intros [] _. cbn [learn].
      set (e := ESend SHELL _ f) in *.
      assert (HR : replied false {| g_pid := g_pid g; g_phdr := g_phdr g; g_took := g_took g; g_out := e :: g_out g |}).
      { exists evs, rep, (ab ++ [e])%list, (ws ++ [w])%list. split; auto. split; [cbn; now rewrite rev_app_distr, B|]. split; auto. split; auto. split; auto. split.
        - apply AR; auto. eapply ad_reply with (m := m') (ty := ty') (rty := rty); [exact Hd|now apply typed_value|now apply reply_type_spec|apply header_with_make|reflexivity..|exact Hf|constructor].
        - cbn. rewrite Ht, rev_app_distr. cbn. auto. }
      split; [exact (replied_S _ _ HR) | exact HR].
    - destruct e as [what|t]; cbn [is_std rgs]; [|split; auto].
      assert (HR : replied false g).
      { exists evs, rep, ab, (ws ++ [w])%list. split; auto. split; auto. split; auto. split; auto. split; auto. split.
        - rewrite <- (app_nil_r ab). apply AR; auto. apply ad_skip; [eexists; exact Hd|constructor].
        - rewrite Ht, rev_app_distr. cbn. auto. }
      split; auto.
    - split; auto.
  Qed.
  Lemma rgs_abort_loop n : ty = "execute_request" -> forall g, replied false g -> rgs c S g (abort_loop E n) (fun g _ => replied true g) (replied true).
  Proof.
    intros Hex. induction n as [|n IH]; intros g H; cbn [abort_loop]; pose proof (replied_S _ _ H) as HSg.
    - split; auto. now apply replied_part.
    - unfold kdo, perform. cbn [tbind rgs]. split; [auto|]. split; [exact I|]. intros [w|] _; cbn [learn].
      + eapply rgs_bind; [|intros g' a _ H'; apply IH; exact H'].
        destruct H as (evs & rep & ab & ws & A & B & C & D & F & G & [H|[? _]] & I); [|discriminate].
        eapply (rgs_abort_request _ w ws w); auto; [|cbn; now rewrite H]. exists evs, rep, ab. auto 10.
      + split; auto. now apply replied_part.
  Qed.

  Definition either (g : ghost) : Prop := after out g \/ replied true g.
  Lemma replying {A} (p : kprog U A) (f : A -> kprog U unit) : K p ->
    (forall a g, after out g -> rgs c S g (f a) (fun g _ => either g) either) -> forall g, after out g -> rgs c S g (tbind p f) (fun g _ => either g) either.
  Proof.
    intros Hp Hf g H. eapply rgs_bind; [eapply rgs_impl; [apply Hp; exact H| |intros; left; eassumption]|].
    - intros g' a H'. exact H'.
    - intros g' a _ H'. now apply Hf.
  Qed.
  Lemma end_reply rty md ct : reply_name ty rty -> forall g, after out g -> rgs c S g (send_reply E rty md ct c) (fun g _ => either g) either.
  Proof. intros Hn g H. eapply rgs_impl; [now apply rgs_reply| |]; intros; [right; now apply replied_part | now left]. Qed.
  Lemma calm_either {A} (p : kprog U A) : K p -> forall g, after out g -> rgs c S g p (fun g _ => either g) either.
  Proof. intros Hp g H. eapply rgs_impl; [apply Hp; exact H| |]; intros; now left. Qed.
  Lemma q_get_metadata : K (get_metadata E).
  Proof. unfold get_metadata. kd. Qed.
  Hint Resolve q_get_metadata : kd.
  Hint Extern 1 (_ <> "status") => discriminate : kd.
  Lemma q_execute code silent store ue stdin : K (interp_execute E code silent store ue stdin).
  Proof.
    unfold interp_execute, publish_execution_input. kd. destruct silent; kd. destruct (Z.eqb _ _); kd.
  Qed.
  Hint Resolve q_execute : kd.
  Ltac named := match goal with e : ty = _ |- _ => rewrite e end;
    match goal with |- reply_name ?a _ => let a := eval cbv in (stake (slen a - 8) a) in exists a; split; reflexivity end.
  Ltac hb := first [ apply end_reply; named | apply replying; [solve [kd] | intros ?] ].
  Lemma rgs_execute m' : ty = "execute_request" -> forall g, after out g -> rgs c S g (execute_request E m' c) (fun g _ => either g) either.
  Proof.
    intros Hex g H. unfold execute_request. cbv zeta.
    eapply rgs_catch with (Y := either); [|intros g' HS' H'; split; auto|auto].
    revert g H. do 9 hb. hb.
    intros g H. eapply rgs_bind with (Q := fun g _ => replied false g).
    { eapply rgs_impl; [apply rgs_reply; [rewrite Hex; exists "execute"; split; reflexivity|exact H]|auto|intros; now left]. }
    intros g1 _ _ H1.
    assert (HK : forall g, replied false g -> S g) by (intros; eapply replied_S; eauto).
    eapply rgs_bind with (Q := fun g _ => replied false g).
    { eapply rgs_impl with (Q := fun g _ => replied false g) (X := replied false); [|auto|intros; right; now apply replied_part].
      revert g1 H1. change (calm (U := U) c S (replied false) (if negb a0 && (a1 && negb a0)
        then h <-- kdo KHistory;; kdo (KSetHistory (store_inputs 0 a2 a "" h)) else Ret tt)).
      destruct (_ && _); [|now apply calm_ret]. apply calm_bind; [|intros h].
      - refine (calm_silent c S _ HK KHistory _ _); [exact I|reflexivity].
      - refine (calm_silent c S _ HK (KSetHistory _) _ _); [exact I|reflexivity]. }
    intros g2 _ _ H2. destruct (_ && _); [|split; [auto|right; now apply replied_part]].
    unfold abort_queue, kdo, perform. cbn [tbind rgs]. split; [auto|]. split; [exact I|]. intros n _. cbn [learn].
    eapply rgs_impl; [apply rgs_abort_loop; auto| |]; intros; now right.
  Qed.
  Lemma rgs_handler h m' : mfind ty (handlers E) = Some h -> forall g, after out g -> rgs c S g (h m' c) (fun g _ => either g) either.
  Proof.
    intros H. unfold handlers in H. cbn [mfind] in H.
    repeat match type of H with (if String.eqb ?a ?b then _ else _) = _ => destruct (String.eqb_spec a b); [injection H as <-|] end; [..|discriminate].
    - now apply rgs_execute.
    - unfold complete_request. cbv zeta. repeat hb.
    - unfold inspect_request. cbv zeta. repeat hb.
    - unfold history_request. repeat hb.
    - unfold is_complete_request. repeat hb.
    - unfold comm_info_request. cbv zeta. repeat hb.
    - apply calm_either. unfold comm_open, run_callback. cbv zeta. kd. destruct a0 as [[p t]|]; kd.
      + destruct (t_callback t); kd. apply q_embed. apply (ua_callback E _ _ HU).
      + destruct a2; kd.
    - apply calm_either. unfold comm_close, run_handler. kd. destruct a0; kd. destruct (c_close a0); kd. apply q_embed. apply (ua_handler E _ _ HU).
    - apply calm_either. unfold comm_msg, run_handler. kd. destruct a0; kd. destruct (c_message a0); kd. apply q_embed. apply (ua_handler E _ _ HU).
    - unfold kernel_info_request. repeat hb.
    - unfold shutdown_request. cbv zeta. repeat hb.
    - unfold interrupt_request. hb. hb.
    - unfold debug_request. pose proof (ua_debugger E _ _ HU) as Hd. destruct (e_debugger E) as [dbg|]; cbv zeta; [|apply calm_either; kd].
      hb. apply replying; [apply q_embed2, Hd|intros ?]. repeat hb.
  Qed.
  Lemma rgs_handle m' : forall g, after out g -> rgs c S g (handle E ty m' c) (fun g _ => either g) either.
  Proof.
    unfold handle. destruct (mfind ty (handlers E)) as [h|] eqn:Hf; [|apply calm_either; kd]. intros g H.
    eapply rgs_catch with (Y := either); [eapply rgs_handler; eauto| |auto]. intros g' HSg H'. destruct (dump _ _); cbn; auto.
  Qed.
End Programs.

Section Dispatch.
  Context {U : Type} (E : env U) (raw : string -> Prop) (HU : user_publishes E raw) (Hraw : ~ raw "status").
  Context (c : channel) (w : frames).
  Definition done (ok : bool) (g : ghost) : Prop := segment E c w (rev (g_took g)) (rev (g_out g)) ok.
  Definition somewhere (g : ghost) : Prop := exists ok, done ok g.
  Lemma rgs_status st h g (Q : ghost -> unit -> Prop) (X : ghost -> Prop) : somewhere g -> g_phdr g = Some h ->
    (forall e, status_event E st c h e -> well_sent E e ->
       let g' := {| g_pid := g_pid g; g_phdr := g_phdr g; g_took := g_took g; g_out := e :: g_out g |} in somewhere g' /\ Q g' tt) -> X g ->
    rgs c somewhere g (publish_status E st c) Q X.
  Proof.
    intros HS Hh H HX. unfold publish_status, publish_message, new_header, new_guid, now, kdo, perform.
    cbn [tbind rgs]. split; [exact HS|]. split; [exact I|]. intros n1 _. cbn [learn tbind rgs]. split; [exact HS|]. split; [exact I|]. intros n2 _. cbn [learn tbind rgs].
    split; [exact HS|]. split; [exact I|]. intros p Hp. cbn [learn]. specialize (Hp eq_refl _ Hh). subst p.
    unfold log, emit. destruct (e_logger E _); cbn [of_res tbind]; [|split; auto..].
    match goal with |- context [pub_serialize ?a ?b ?d ?x] => destruct (pub_serialize a b d x) as [f|e|] eqn:Hf end; cbn [of_res tbind]; [|split; auto..].
    unfold kdo, perform. cbn [rgs]. split; [exact HS|]. split; [exact I|]. intros [] _. cbn [learn].
    match goal with |- context [?e :: g_out g] => destruct (H e) as [H1 H2] end; [|exact Hf|split; auto].
    eexists _, _, _. split; [reflexivity|]. split; [apply header_with_make|]. cbn. auto 10.
  Qed.
  Lemma rgs_dispatch p h : rgs c somewhere (ghost_of p h) (dispatch E w c) (fun g _ => done true g) (fun _ => True).
  Proof.
    assert (S0 : somewhere (ghost_of p h)) by (exists false; constructor).
    unfold dispatch. destruct (deserialize (e_crypto E) (e_auth E) w) as [m|e|why] eqn:Hd; cbn [of_res tbind catch_std]; [| |split; auto].
    2:{ destruct e as [what|t]; cbn [is_std tbind rgs]; [|split; auto]. split; auto. apply sg_rejected. eexists; exact Hd. }
    cbv zeta. unfold log. destruct (e_logger E _); cbn [of_res tbind]; [|split; auto..].
    unfold set_parent, kdo, perform. cbn [tbind rgs]. split; [exact S0|]. split; [reflexivity|]. intros x1 _. cbn [learn].
    assert (S1 : forall a b, somewhere {| g_pid := a; g_phdr := b; g_took := []; g_out := [] |}) by (intros; exists false; constructor).
    split; [apply S1|]. split; [reflexivity|]. intros x2 _. cbn [learn ghost_of g_pid g_phdr g_took g_out].
    assert (HA : forall b g, status_event E "busy" c (m_header (m_base m)) b -> well_sent E b -> after E c m [b] g -> done false g).
    { intros b g Hb Wb (A & B & evs & C & D). unfold done. rewrite B, C, rev_app_distr. eapply sg_work; eauto. now apply Forall_rev. }
    eapply rgs_bind with (Q := fun g _ => exists b, status_event E "busy" c (m_header (m_base m)) b /\ well_sent E b /\ after E c m [b] g).
    { eapply rgs_status with (h := m_header (m_base m)); [apply S1|reflexivity| |exact I].
      intros b Hb Wb. cbv zeta. cbn [g_pid g_phdr g_took g_out]. set (g' := {| g_pid := _ |}).
      assert (H' : after E c m [b] g') by (split; [split; reflexivity|]; split; [reflexivity|]; exists []; auto).
      split; [exists false; eapply HA; eauto|eauto]. }
    intros g _ Sg (b & Hb & Wb & H).
    destruct (value_string "msg_type" "" (m_header (m_base m))) as [ty|e|] eqn:Hv; cbn [of_res tbind]; [|split; auto..].
    apply typed_value in Hv.
    assert (HR : forall g evs rep ab ws, parent m g -> g_out g = (rev ab ++ rep :: evs ++ [b])%list ->
      Forall (inner E c m) evs -> well_sent E rep -> routed E c (m_ids m) (m_header (m_base m)) ty rep ->
      aborted E ws ab -> (g_took g = rev ws \/ exists x, g_took g = x :: rev ws) -> (g_took g <> [] -> ty = "execute_request") -> done false g).
    { intros g1 evs rep ab ws A B C D F G H' I'. unfold done.
      replace (rev (g_out g1)) with (b :: rev evs ++ rep :: ab)%list.
      2:{ rewrite B, rev_app_distr. cbn [rev]. rewrite rev_app_distr, rev_involutive. cbn. now rewrite <- !app_assoc. }
      eapply (sg_reply E c w m ty b (rev evs) rep ab ws); auto; [now apply Forall_rev| |].
      - destruct H' as [->|[x ->]]; [left; apply rev_involutive|right; exists x; cbn; now rewrite rev_involutive].
      - intros Hn. apply I'. intros Ht. rewrite Ht in Hn. now apply Hn. }
    eapply rgs_bind with (Q := fun g _ => parent m g /\ done false g /\ g_out g <> []).
    { eapply rgs_impl; [eapply (rgs_handle E raw HU Hraw c m somewhere [b]); [| |exact H]| |auto].
      - intros g1 H1. exists false. eapply HA; eauto.
      - intros. exists false. eapply HR; eauto.
      - cbn beta. intros g1 _ [H1|(evs & rep & ab & ws & A & B & C & D & F & G & I' & J)].
        + split; [apply H1|]. split; [eapply HA; eauto|]. destruct H1 as (_ & _ & evs & -> & _). destruct evs; discriminate.
        + split; [exact A|]. split; [eapply HR; eauto|]. { destruct I' as [I'|[_ I']]; auto. } rewrite B. destruct (rev ab); discriminate. }
    intros g2 _ _ (H1 & H2 & H3). eapply rgs_status with (h := m_header (m_base m)); [exists false; exact H2|apply H1| |exact I].
    intros i Hi Wi. cbv zeta. set (g' := {| g_pid := _ |}).
    assert (H' : done true g').
    { unfold done. cbn [g' g_took g_out rev]. eapply sg_done; eauto. intros Hn. apply H3. apply (f_equal (@rev event)) in Hn. now rewrite rev_involutive in Hn. }
    split; [now exists true|exact H'].
  Qed.
  (** Internal requests. *)
  Definition asides (g : ghost) : Prop := g_took g = [] /\ Forall (aside E) (g_out g).
  Lemma rgs_internal p h : rgs SHELL asides (ghost_of p h) (dispatch_internal E w) (fun g _ => True) (fun _ => True).
  Proof.
    set (m := {| m_ids := p; m_base := {| m_header := h; m_parent_header := JNull; m_metadata := JNull; m_content := JNull; m_buffers := [] |} |}).
    eapply rgs_impl; [eapply (q_internal E raw HU Hraw SHELL m asides [])|auto|auto].
    - intros g (_ & A & evs & B & C). split; auto. rewrite B, app_nil_r. eapply Forall_impl; [|exact C]. intros e (? & ? & ? & X). split; [assumption|]. split; [assumption|]. split; [assumption|]. destruct e; auto. destruct X as (_ & id & ty & X & _). eauto.
    - split; [split; reflexivity|]. split; [reflexivity|]. exists []. auto.
  Qed.
End Dispatch.

(** ** The threads *)
Section System.
  Context {U : Type} (v : variant) (E : env U) (raw : string -> Prop) (HU : user_publishes E raw) (Hraw : ~ raw "status").
  Implicit Types (m : mem U).
  Let listener c w := dispatch E w c.
  Let internal := dispatch_internal E.
  Definition gkeep (c : channel) (S : ghost -> Prop) {A} (Q : ghost -> A -> Prop) gh (g : going U A) : Prop :=
    match g with
    | Going p => rgs c S gh p Q (fun _ => True)
    | Calling k => S gh /\ forall w, rgs c S gh (k w) Q (fun _ => True)
    end.
  Lemma gkeep_now c S {A} Q gh (g : going U A) : gkeep c S Q gh g -> S gh.
  Proof. destruct g; cbn; [apply rgs_now|tauto]. Qed.
  Lemma gstep_keep c S {A} Q (g : going U A) m l g' m' gh : gstep c g m l g' m' -> gkeep c S Q gh g -> agrees c gh m ->
    (exists gh', gkeep c S Q gh' g' /\ agrees c gh' m' /\
      g_took gh' = (tooks c [l] ++ g_took gh)%list /\ g_out gh' = (events c [l] ++ g_out gh)%list) /\
    (forall c', c' <> c -> same_parent c' m m') /\ (forall c', ~ starts c' l) /\
    (forall c', c' <> c -> tooks c' [l] = [] /\ events c' [l] = []).
  Proof.
    intros H Hs Ha.
    assert (Hne : forall c', c' <> c -> chan_eqb c' c = false).
    { intros c' Hc. destruct (chan_eqb c' c) eqn:X; auto. apply chan_eqb_eq in X. congruence. }
    destruct H as [o k m m' x H|w k m H|k w m H]; cbn [gkeep rgs] in *.
    - destruct Hs as (HS & Ho & Hk).
      assert (Hm : (forall w, o <> KCall w) -> may c (fun _ _ => True) o gh) by (intros Hn; destruct o; cbn in *; auto; now destruct (Hn w)).
      destruct (mop_thread c (fun _ _ => True) o m m' x gh H) as (B & C & D); auto.
      { apply Hm. intros w ->. destruct H. }
      split; [|split; [exact D|split]].
      + exists (learn o x gh). split; [apply (Hk x B)|]. split; [exact C|]. clear -x.
        destruct o; cbn; try (split; reflexivity).
        * rewrite chan_eqb_refl. split; reflexivity.
        * destruct x; cbn; rewrite ?chan_eqb_refl; split; reflexivity.
      + intros c'. destruct o; cbn; auto. destruct x; auto.
      + intros c' Hc. destruct o; cbn; auto; [rewrite (Hne _ Hc); auto|]. destruct x; cbn; rewrite ?(Hne _ Hc); auto.
    - destruct Hs as (HS & _ & Hk). split; [|split; [intros; split; reflexivity|split; [auto|auto]]].
      exists gh. split; [|split; [exact Ha|split; reflexivity]]. split; auto. intros w'. apply (Hk w'). exact I.
    - split; [|split; [intros; split; reflexivity|split; auto]].
      exists gh. split; [apply Hs|split; [exact Ha|split; reflexivity]].
  Qed.

  (** Thread [c] is in its listener, in the internal listener, in none. *)
  Definition in_listener (c : channel) (ls : list slabel) m (g : going U unit) : Prop :=
    exists l1 w l2 gh, ls = (l1 ++ YHand c w :: l2)%list /\ in_same c l2 /\
      gkeep c (somewhere E c w) (fun gh _ => done E c w true gh) gh g /\ agrees c gh m /\
      g_took gh = rev (tooks c l2) /\ g_out gh = rev (events c l2).
  Definition in_internal (ls : list slabel) m (g : going U frames) : Prop :=
    exists l1 w l2 gh, ls = (l1 ++ YIntern w :: l2)%list /\ in_same SHELL l2 /\
      gkeep SHELL (asides E) (fun _ _ => True) gh g /\ agrees SHELL gh m /\
      g_took gh = rev (tooks SHELL l2) /\ g_out gh = rev (events SHELL l2).
  Definition in_none (c : channel) (ls : list slabel) : Prop :=
    (forall l1 w l2, ls = (l1 ++ YHand c w :: l2)%list -> in_same c l2 -> segment E c w (tooks c l2) (events c l2) true) /\
    (forall l1 w l2, c = SHELL -> ls = (l1 ++ YIntern w :: l2)%list -> in_same c l2 -> tooks c l2 = [] /\ Forall (aside E) (events c l2)) /\
    (in_same c ls -> tooks c ls = [] /\ events c ls = []).
  Definition shell_at (ls : list slabel) (a : shpc U) m : Prop :=
    match a with SRun g _ => in_listener SHELL ls m g | SIntern g => in_internal ls m g | _ => in_none SHELL ls end.
  Definition control_at (ls : list slabel) (a : ctpc U) m : Prop :=
    match a with CRun g => in_listener CONTROL ls m g | _ => in_none CONTROL ls end.

  Lemma rev_nil {A} (l : list A) : rev l = [] -> l = [].
  Proof. intros H. rewrite <- (rev_involutive l), H. reflexivity. Qed.
  Lemma none_snoc c ls l : in_none c ls -> foreign c l -> in_none c (ls ++ [l]).
  Proof.
    intros (A & B & C) (F1 & F2 & F3).
    assert (P : forall l1 x l2, starts c x -> (ls ++ [l] = l1 ++ x :: l2)%list -> in_same c l2 ->
      exists l2', ls = (l1 ++ x :: l2')%list /\ in_same c l2' /\ tooks c l2 = tooks c l2' /\ events c l2 = events c l2').
    { intros l1 x l2 Hx Hl H2. destruct l2 as [|y l2 _] using rev_ind.
      - apply app_inj_tail in Hl as [_ ->]. now destruct F1.
      - rewrite app_comm_cons, app_assoc in Hl. apply app_inj_tail in Hl as [-> <-]. apply Forall_app in H2 as [H2 _].
        exists l2. rewrite tooks_app, events_app, F2, F3, !app_nil_r. auto. }
    split; [|split].
    - intros l1 w l2 Hl H2. destruct (P l1 (YHand c w) l2) as (l2' & D & F & -> & ->); cbn; eauto.
    - intros l1 w l2 -> Hl H2. destruct (P l1 (YIntern w) l2) as (l2' & D & F & -> & ->); cbn; eauto.
    - intros H. apply Forall_app in H as [H _]. rewrite tooks_app, events_app, F2, F3, !app_nil_r. auto.
  Qed.
  Lemma listener_snoc c ls l m m' g : in_listener c ls m g -> foreign c l -> same_parent c m m' -> in_listener c (ls ++ [l]) m' g.
  Proof.
    intros (l1 & w & l2 & gh & -> & A & C & D & F & G) (F1 & F2 & F3) S.
    exists l1, w, (l2 ++ [l])%list, gh. rewrite <- app_assoc. split; auto. split; [apply Forall_app; auto|]. split; auto.
    split; [eapply agrees_same; eauto|]. rewrite tooks_app, events_app, F2, F3, !app_nil_r. auto.
  Qed.
  Lemma internal_snoc ls l m m' g : in_internal ls m g -> foreign SHELL l -> same_parent SHELL m m' -> in_internal (ls ++ [l]) m' g.
  Proof.
    intros (l1 & w & l2 & gh & -> & A & C & D & F & G) (F1 & F2 & F3) S.
    exists l1, w, (l2 ++ [l])%list, gh. rewrite <- app_assoc. split; auto. split; [apply Forall_app; auto|]. split; auto.
    split; [eapply agrees_same; eauto|]. rewrite tooks_app, events_app, F2, F3, !app_nil_r. auto.
  Qed.
  Lemma shell_at_snoc ls l m m' a : shell_at ls a m -> foreign SHELL l -> same_parent SHELL m m' -> shell_at (ls ++ [l]) a m'.
  Proof. destruct a; cbn; eauto using none_snoc, listener_snoc, internal_snoc. Qed.
  Lemma control_at_snoc ls l m m' a : control_at ls a m -> foreign CONTROL l -> same_parent CONTROL m m' -> control_at (ls ++ [l]) a m'.
  Proof. destruct a; cbn; eauto using none_snoc, listener_snoc. Qed.
  Lemma enter c ls m m' w : same_parent c m m' -> in_listener c (ls ++ [YHand c w]) m' (Going (listener c w)).
  Proof.
    intros [S1 S2]. exists ls, w, [], (ghost_of (k_pid (m_k m) c) (k_phdr (m_k m) c)).
    split; auto. split; [constructor|]. split; [eapply rgs_dispatch; eauto|]. split; [split; cbn; congruence|]. split; reflexivity.
  Qed.
  Lemma enter_internal ls m w : in_internal (ls ++ [YIntern w]) m (Going (internal w)).
  Proof.
    exists ls, w, [], (ghost_of (k_pid (m_k m) SHELL) (k_phdr (m_k m) SHELL)).
    split; auto. split; [constructor|]. split; [eapply rgs_internal; eauto|]. split; [split; cbn; congruence|]. split; reflexivity.
  Qed.
  Lemma rev_tooks c l : rev (tooks c [l]) = tooks c [l].
  Proof. destruct l; cbn; auto. destruct (chan_eqb _ _); auto. Qed.
  Lemma rev_events c l : rev (events c [l]) = events c [l].
  Proof. destruct l; cbn; auto. destruct (chan_eqb _ _); auto. Qed.
  Lemma work c ls m g l g' m' : gstep c g m l g' m' -> in_listener c ls m g ->
    in_listener c (ls ++ [l]) m' g' /\ (forall c', c' <> c -> same_parent c' m m' /\ foreign c' l).
  Proof.
    intros Hs (l1 & w & l2 & gh & -> & A & C & D & F & G).
    destruct (gstep_keep _ _ _ _ _ _ _ _ _ Hs C D) as ((gh' & G1 & G2 & G3 & G4) & H2 & H4 & H5).
    split; [|intros c' Hc; split; [auto|split; [apply H4 | apply H5; auto]]].
    exists l1, w, (l2 ++ [l])%list, gh'. rewrite <- app_assoc. split; auto. split; [apply Forall_app; auto|]. split; auto. split; auto.
    rewrite tooks_app, events_app, !rev_app_distr, rev_tooks, rev_events, G3, G4, F, G. auto.
  Qed.
  Lemma work_internal ls m g l g' m' : gstep SHELL g m l g' m' -> in_internal ls m g ->
    in_internal (ls ++ [l]) m' g' /\ (forall c', c' <> SHELL -> same_parent c' m m' /\ foreign c' l).
  Proof.
    intros Hs (l1 & w & l2 & gh & -> & A & C & D & F & G).
    destruct (gstep_keep _ _ _ _ _ _ _ _ _ Hs C D) as ((gh' & G1 & G2 & G3 & G4) & H2 & H4 & H5).
    split; [|intros c' Hc; split; [auto|split; [apply H4 | apply H5; auto]]].
    exists l1, w, (l2 ++ [l])%list, gh'. rewrite <- app_assoc. split; auto. split; [apply Forall_app; auto|]. split; auto. split; auto.
    rewrite tooks_app, events_app, !rev_app_distr, rev_tooks, rev_events, G3, G4, F, G. auto.
  Qed.
  Lemma starts_in c l1 x l2 : starts c x -> ~ in_same c (l1 ++ x :: l2).
  Proof. intros Hx H. apply Forall_app in H as [_ H]. inversion H. contradiction. Qed.
  Lemma leave c ls m a : in_listener c ls m (Going (Ret a)) -> in_none c ls.
  Proof.
    intros (l1 & w & l2 & gh & -> & A & C & D & F & G). destruct C as [_ C]. unfold done in C. rewrite F, G, !rev_involutive in C. split; [|split].
    - intros l1' w' l2' Hl H2.
      destruct (last_start c _ _ _ _ _ _ Hl) as (<- & Hw & <-); [reflexivity|reflexivity|exact A|exact H2|]. injection Hw as <-. exact C.
    - intros l1' w' l2' -> Hl H2.
      destruct (last_start SHELL _ _ _ _ _ _ Hl) as (<- & Hw & <-); [reflexivity|reflexivity|exact A|exact H2|]. discriminate.
    - intros H. exfalso. eapply starts_in; [|exact H]. reflexivity.
  Qed.
  Lemma leave_internal ls m a : in_internal ls m (Going (Ret a)) -> in_none SHELL ls.
  Proof.
    intros (l1 & w & l2 & gh & -> & A & C & D & F & G). destruct C as [[C1 C2] _]. rewrite F in C1. rewrite G in C2. split; [|split].
    - intros l1' w' l2' Hl H2.
      destruct (last_start SHELL _ _ _ _ _ _ Hl) as (<- & Hw & <-); [reflexivity|reflexivity|exact A|exact H2|]. discriminate.
    - intros l1' w' l2' _ Hl H2.
      destruct (last_start SHELL _ _ _ _ _ _ Hl) as (<- & Hw & <-); [reflexivity|reflexivity|exact A|exact H2|].
      split; [now apply rev_nil|]. apply Forall_rev in C2. now rewrite rev_involutive in C2.
    - intros H. exfalso. eapply starts_in; [|exact H]. reflexivity.
  Qed.

  Hint Resolve same_set_call same_set_shellq same_set_ctlq same_set_pub same_set_hb same_set_stdin same_refl foreign_tau foreign_end : core.
  Lemma shell_step_at ls a m l a' m' b : shell_step listener internal a m l a' m' -> shell_at ls a m -> control_at ls b m ->
    shell_at (ls ++ [l]) a' m' /\ control_at (ls ++ [l]) b m'.
  Proof.
    intros H HS HC. destruct H; cbn [shell_at] in *.
    all: try (split; [eapply (none_snoc SHELL); eauto | eapply control_at_snoc; eauto]; fail).
    - split; [eapply enter; eauto | eapply control_at_snoc; eauto]. repeat split. intros [=].
    - destruct (work _ _ _ _ _ _ _ H HS) as [A B]. split; auto. destruct (B CONTROL); [discriminate|]. eapply control_at_snoc; eauto.
    - apply leave in HS. split; [|eapply control_at_snoc; eauto]. destruct b0; apply (none_snoc SHELL); auto.
    - split; [eapply enter_internal; eauto | eapply control_at_snoc; eauto]. repeat split. intros [=].
    - destruct (work_internal _ _ _ _ _ _ H HS) as [A B]. split; auto. destruct (B CONTROL); [discriminate|]. eapply control_at_snoc; eauto.
    - apply leave_internal in HS. split; [|eapply control_at_snoc; eauto]. apply (none_snoc SHELL); auto.
  Qed.
  Lemma control_step_at ls a m l a' m' b : control_step listener a m l a' m' -> control_at ls a m -> shell_at ls b m ->
    control_at (ls ++ [l]) a' m' /\ shell_at (ls ++ [l]) b m'.
  Proof.
    intros H HS HC. destruct H; cbn [control_at] in *.
    all: try (split; [eapply (none_snoc CONTROL); eauto | eapply shell_at_snoc; eauto]; fail).
    - split; [eapply enter; eauto | eapply shell_at_snoc; eauto]. repeat split. intros [=].
    - destruct (work _ _ _ _ _ _ _ H HS) as [A B]. split; auto. destruct (B SHELL); [discriminate|]. eapply shell_at_snoc; eauto.
    - apply leave in HS. split; [|apply shell_at_snoc with (m := m); auto]. apply (none_snoc CONTROL); auto.
  Qed.
  Definition sys_at (ls : list slabel) (s : ysys U) : Prop := shell_at ls (y_sh s) (y_mem s) /\ control_at ls (y_ct s) (y_mem s).
  Lemma ystep_at ls s l s' : sys_at ls s -> ystep v listener internal s l s' -> sys_at (ls ++ [l]) s'.
  Proof.
    intros [A B] H. destruct H; unfold sys_at; cbn [y_sh y_ct y_mem] in *.
    all: try (split; [eapply shell_at_snoc; eauto | eapply control_at_snoc; eauto]; fail).
    - eapply shell_step_at; eauto.
    - apply and_comm. eapply control_step_at; eauto.
    - assert (F : forall c', foreign c' (YArrive ch w)) by (intros c'; repeat split; intros []).
      destruct ch; (split; [eapply shell_at_snoc; eauto | eapply control_at_snoc; eauto]).
    - assert (F : forall c', foreign c' (YBeat w)) by (intros c'; repeat split; intros []).
      split; [eapply shell_at_snoc; eauto | eapply control_at_snoc; eauto].
    - assert (F : forall c', foreign c' YStdin) by (intros c'; repeat split; intros []).
      split; [eapply shell_at_snoc; eauto | eapply control_at_snoc; eauto].
  Qed.
  Lemma yrun_at k0 start ls s : yrun v listener internal (y_init k0 start) ls s -> sys_at ls s.
  Proof.
    remember (y_init k0 start) as s0 eqn:Hs0. induction 1 as [|s0 ls s1 l s2 H IH Hst]; [subst s|].
    - split; cbn; (split; [intros [|? ?] ? ? [=]|split; [intros [|? ?] ? ? _ [=]|auto]]).
    - apply (ystep_at _ _ _ _ (IH Hs0) Hst).
  Qed.

  (** ** What the observations show *)
  Definition thread_at (c : channel) (ls : list slabel) (s : ysys U) : Prop :=
    (exists g, in_listener c ls (y_mem s) g) \/ (c = SHELL /\ exists g, in_internal ls (y_mem s) g) \/ in_none c ls.
  Lemma yrun_thread c k0 start ls s : yrun v listener internal (y_init k0 start) ls s -> thread_at c ls s.
  Proof.
    intros H. destruct (yrun_at _ _ _ _ H) as [A B]. unfold thread_at. destruct c.
    - destruct (y_sh s); cbn in A; eauto 6.
    - destruct (y_ct s); cbn in B; eauto 6.
  Qed.
  Lemma thread_segment k0 start ls s c w l1 l2 : yrun v listener internal (y_init k0 start) ls s ->
    ls = (l1 ++ YHand c w :: l2)%list -> in_same c l2 -> exists ok, segment E c w (tooks c l2) (events c l2) ok.
  Proof.
    intros Hr Hl H2. destruct (yrun_thread c _ _ _ _ Hr) as [(g & l1' & w' & l2' & gh & Hl' & A & C & D & F & G)|[(-> & g & l1' & w' & l2' & gh & Hl' & A & _)|(A & _)]].
    - rewrite Hl in Hl'. destruct (last_start c _ _ _ _ _ _ Hl') as (<- & Hw & <-); [reflexivity|reflexivity|exact H2|exact A|]. injection Hw as <-.
      apply gkeep_now in C as [ok C]. unfold done in C. rewrite F, G, !rev_involutive in C. now exists ok.
    - rewrite Hl in Hl'. destruct (last_start SHELL _ _ _ _ _ _ Hl') as (<- & Hw & <-); [reflexivity|reflexivity|exact H2|exact A|]. discriminate.
    - exists true. eauto.
  Qed.
  Lemma thread_internal k0 start ls s w l1 l2 : yrun v listener internal (y_init k0 start) ls s ->
    ls = (l1 ++ YIntern w :: l2)%list -> in_same SHELL l2 -> tooks SHELL l2 = [] /\ Forall (aside E) (events SHELL l2).
  Proof.
    intros Hr Hl H2. destruct (yrun_thread SHELL _ _ _ _ Hr) as [(g & l1' & w' & l2' & gh & Hl' & A & _)|[(_ & g & l1' & w' & l2' & gh & Hl' & A & C & D & F & G)|(_ & A & _)]].
    - rewrite Hl in Hl'. destruct (last_start SHELL _ _ _ _ _ _ Hl') as (<- & Hw & <-); [reflexivity|reflexivity|exact H2|exact A|]. discriminate.
    - rewrite Hl in Hl'. destruct (last_start SHELL _ _ _ _ _ _ Hl') as (<- & Hw & <-); [reflexivity|reflexivity|exact H2|exact A|].
      apply gkeep_now in C as [C1 C2]. rewrite F in C1. rewrite G in C2.
      split; [now apply rev_nil|]. apply Forall_rev in C2. now rewrite rev_involutive in C2.
    - eauto.
  Qed.
  Lemma thread_before k0 start ls s c : yrun v listener internal (y_init k0 start) ls s -> in_same c ls -> tooks c ls = [] /\ events c ls = [].
  Proof.
    intros Hr H2. destruct (yrun_thread c _ _ _ _ Hr) as [(g & l1' & w' & l2' & gh & -> & A & _)|[(-> & g & l1' & w' & l2' & gh & -> & A & _)|(_ & _ & A)]]; auto.
    - exfalso. eapply starts_in; [|exact H2]. reflexivity.
    - exfalso. eapply starts_in; [|exact H2]. reflexivity.
  Qed.
  Lemma thread_ended k0 start ls s c w l l1 l2 l3 : yrun v listener internal (y_init k0 start) ls s ->
    ls = (l1 ++ YHand c w :: l2 ++ l :: l3)%list -> in_same c l2 -> starts c l -> segment E c w (tooks c l2) (events c l2) true.
  Proof.
    intros Hr -> H2 Hl.
    destruct (yrun_app _ _ _ _ _ _ Hr (l1 ++ YHand c w :: l2) (l :: l3)) as (s1 & R1 & R2); [now rewrite <- app_assoc|].
    destruct (yrun_app _ _ _ _ _ _ R2 [l] l3 eq_refl) as (s2 & R3 & _). apply yrun_one in R3.
    destruct (yrun_at _ _ _ _ R1) as [IS IC].
    assert (HR : in_none c (l1 ++ YHand c w :: l2)).
    { assert (HG : forall c' A (g : going U A) m g' m', gstep c' g m l g' m' -> False).
      { intros c' A g m g' m' H. destruct H; cbn in Hl; auto. destruct o; cbn in Hl; auto. destruct x; auto. }
      destruct R3; cbn [y_sh y_ct y_mem] in *; try contradiction.
      - destruct H; cbn in Hl; try contradiction.
        + subst c. exact IS.
        + exfalso; eauto.
        + subst c. exact IS.
        + exfalso; eauto.
      - destruct H; cbn in Hl; try contradiction.
        + subst c. exact IC.
        + exfalso; eauto. }
    destruct HR as [HR _]. eapply HR; eauto.
  Qed.
End System.
