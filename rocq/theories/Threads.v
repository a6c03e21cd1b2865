(** Reasoning about one thread under interference. A thread works for channel [c]; its ghost state
    records what the thread knows to be stable: the parent recorded for [c], which only this thread
    changes, the messages it has taken from the shell socket, and its events (the last one first). *)
From Verif Require Import Base Json JsonText Auth Message History Comm Tree Kernel KernelSpec KernelRun Server Split SplitSpec.

Record ghost := { g_pid : option (list string); g_phdr : option json; g_took : list frames; g_out : list event }.
Definition ghost0 : ghost := {| g_pid := None; g_phdr := None; g_took := []; g_out := [] |}.

Section Threads.
  Context {U : Type} (c : channel) (P : ghost -> event -> Prop).
  Implicit Types (g : ghost).

  (** What the thread may do. *)
  Definition may (o : kop U) g : Prop :=
    match o with
    | KSetPid c' _ | KSetPhdr c' _ => c' = c
    | KEmit e => P g e
    | KCall w => exists j t, dump EStrict j = Ok t /\ w = [t]
    | _ => True
    end.
  (** The answers it may get. *)
  Definition heard (o : kop U) : kans o -> ghost -> Prop :=
    match o return kans o -> ghost -> Prop with
    | KPid c' => fun x g => c' = c -> forall i, g_pid g = Some i -> x = i
    | KPhdr c' => fun x g => c' = c -> forall h, g_phdr g = Some h -> x = h
    | _ => fun _ _ => True
    end.
  (** What it knows then. *)
  Definition learn (o : kop U) : kans o -> ghost -> ghost :=
    match o return kans o -> ghost -> ghost with
    | KSetPid _ ids => fun _ g => {| g_pid := Some ids; g_phdr := g_phdr g; g_took := g_took g; g_out := g_out g |}
    | KSetPhdr _ h => fun _ g => {| g_pid := g_pid g; g_phdr := Some h; g_took := g_took g; g_out := g_out g |}
    | KEmit e => fun _ g => {| g_pid := g_pid g; g_phdr := g_phdr g; g_took := g_took g; g_out := e :: g_out g |}
    | KShellPop => fun x g => match x with Some w => {| g_pid := g_pid g; g_phdr := g_phdr g; g_took := w :: g_took g; g_out := g_out g |} | None => g end
    | _ => fun _ g => g
    end.
  Fixpoint rg {A} (g : ghost) (p : kprog U A) (Q : ghost -> A -> Prop) (X : ghost -> Prop) : Prop :=
    match p with
    | Ret a => Q g a
    | Throw _ => X g
    | Stuck _ => True
    | Do o k => may o g /\ forall x, heard o x g -> rg (learn o x g) (k x) Q X
    end.
  Lemma rg_impl {A} g (p : kprog U A) (Q Q' : ghost -> A -> Prop) (X X' : ghost -> Prop) :
    rg g p Q X -> (forall g a, Q g a -> Q' g a) -> (forall g, X g -> X' g) -> rg g p Q' X'.
  Proof.
    revert g; induction p as [a|e|w|o k IH]; intros g H HQ HX; cbn in *; auto. destruct H as [Hm H]. split; auto.
  Qed.
  Lemma rg_bind {A B} g (p : kprog U A) (f : A -> kprog U B) Q R X :
    rg g p Q X -> (forall g a, Q g a -> rg g (f a) R X) -> rg g (tbind p f) R X.
  Proof. revert g; induction p as [a|e|w|o k IH]; intros g H Hf; cbn in *; auto. destruct H as [Hm H]. split; auto. Qed.
  Lemma rg_catch {A} g (p h : kprog U A) Q X : rg g p Q X -> (forall g, X g -> rg g h Q X) -> rg g (catch_std p h) Q X.
  Proof.
    revert g; induction p as [a|e|w|o k IH]; intros g H Hf; cbn in *; auto.
    - destruct (is_std e); cbn; auto.
    - destruct H as [Hm H]. split; auto.
  Qed.
  Lemma rg_catch' {A} g (p h : kprog U A) Q (X Y : ghost -> Prop) :
    rg g p Q Y -> (forall g, Y g -> rg g h Q X) -> (forall g, Y g -> X g) -> rg g (catch_std p h) Q X.
  Proof.
    revert g; induction p as [a|e|w|o k IH]; intros g H Hf HX; cbn in *; auto.
    - destruct (is_std e); cbn; auto.
    - destruct H as [Hm H]. split; auto.
  Qed.
  Lemma rg_attempt {A} g (p : kprog U A) (Q : ghost -> A + exn -> Prop) (X Y : ghost -> Prop) :
    rg g p (fun g a => Q g (inl a)) Y -> (forall g e, Y g -> Q g (inr e)) -> rg g (attempt p) Q X.
  Proof.
    revert g; induction p as [a|e|w|o k IH]; intros g H HY; cbn in *; auto. destruct H as [Hm H]. split; auto.
  Qed.
  Lemma rg_res {A} g (r : res A) (Q : ghost -> A -> Prop) (X : ghost -> Prop) :
    (forall a, r = Ok a -> Q g a) -> X g -> rg g (of_res r) Q X.
  Proof. destruct r; cbn; auto. Qed.
End Threads.

(** ** The kernel's programs *)
Section Kernel.
  Context {U : Type} (E : env U) (c : channel).
  (** The thread's channel handles message [m]. *)
  Variable m : xmessage.
  Definition PA (g : ghost) (e : event) : Prop := attributed E c m (g_took g) e.
  (** The parent of [m] is recorded, and [T] was taken. *)
  Definition inv (T : list frames) (g : ghost) : Prop :=
    g_pid g = Some (m_ids m) /\ g_phdr g = Some (m_header (m_base m)) /\ incl T (g_took g).
  Definition good {A} (T : list frames) (p : kprog U A) : Prop :=
    forall g, inv T g -> rg c PA g p (fun g _ => inv T g) (inv T).

  Lemma good_ret {A} T (a : A) : good T (Ret a).
  Proof. intros g H. exact H. Qed.
  Lemma good_throw {A} T e : good T (Throw e : kprog U A).
  Proof. intros g H. exact H. Qed.
  Lemma good_stuck {A} T w : good T (Stuck w : kprog U A).
  Proof. intros g H. exact I. Qed.
  Lemma good_res {A} T (r : res A) : good T (of_res r).
  Proof. intros g H. apply rg_res; auto. Qed.
  Lemma good_bind {A B} T (p : kprog U A) (f : A -> kprog U B) : good T p -> (forall a, good T (f a)) -> good T (tbind p f).
  Proof. intros Hp Hf g H. eapply rg_bind; [apply Hp, H|]. intros; now apply Hf. Qed.
  Lemma good_catch {A} T (p h : kprog U A) : good T p -> good T h -> good T (catch_std p h).
  Proof. intros Hp Hf g H. eapply rg_catch; [apply Hp, H|]. intros; now apply Hf. Qed.
  Lemma good_attempt {A} T (p : kprog U A) : good T p -> good T (attempt p).
  Proof. intros Hp g H. eapply rg_attempt; [apply Hp, H|]. auto. Qed.
  Lemma good_silent T o : (forall g, may c PA o g) -> (forall x g, learn o x g = g) -> good T (kdo o).
  Proof. intros H1 H2 g H. split; auto. intros x _. cbn. now rewrite H2. Qed.
  Lemma good_mark T e : (match e with EPublish _ _ _ | ESend _ _ _ | EStdin _ _ => False | _ => True end) -> good T (emit e).
  Proof. intros He g H. split; [destruct e; try contradiction; exact I|]. intros x _. exact H. Qed.
  Ltac gq := match goal with |- good _ (kdo ?o) => refine (good_silent _ o _ _); [intros; exact I | reflexivity] end.
  Ltac gb := apply good_bind; [|intros].

  Lemma good_guid T : good T (new_guid E).
  Proof. unfold new_guid. gb; [gq | apply good_ret]. Qed.
  Lemma good_now T : good T (now E).
  Proof. unfold now. gb; [gq | apply good_ret]. Qed.
  Lemma good_header T ty : good T (new_header E ty).
  Proof. unfold new_header. gb; [apply good_guid|]. gb; [apply good_now | apply good_ret]. Qed.
  Lemma good_publish T ty md ct bufs c' : good T (publish_message E ty md ct bufs c').
  Proof.
    unfold publish_message. gb; [apply good_header|]. intros g H. unfold kdo, perform. cbn [tbind rg]. split; [exact I|].
    intros p Hp. cbn [learn]. destruct H as (H1 & H2 & H3).
    unfold log, emit. destruct (e_logger E _); cbn; auto; [|repeat split; auto].
    destruct (pub_serialize _ _ _ _); cbn; auto; [|repeat split; auto]. split; [|intros; repeat split; auto].
    intros ->. cbn. apply (Hp eq_refl). exact H2.
  Qed.
  Lemma good_reply_to T ids ty ph md ct c' :
    (c' = c /\ ids = m_ids m /\ ph = m_header (m_base m)) \/
    (c' = SHELL /\ exists w' m', In w' T /\ accepted E w' m' /\ ids = m_ids m' /\ ph = m_header (m_base m')) ->
    good T (send_reply_to E ids ty ph md ct c').
  Proof.
    intros Ha. unfold send_reply_to. gb; [apply good_header|]. intros g (H1 & H2 & H3).
    unfold log, emit. destruct (e_logger E _); cbn; auto; [|repeat split; auto].
    destruct (serialize _ _ _ _); cbn; auto; [|repeat split; auto]. split; [|intros; repeat split; auto].
    unfold PA. cbn. destruct Ha as [(-> & -> & ->)|(-> & w' & m' & A & B & -> & ->)]; [left; auto|right].
    split; auto. exists w', m'. repeat split; auto.
  Qed.
  Lemma good_reply T ty md ct : good T (send_reply E ty md ct c).
  Proof.
    intros g H. unfold send_reply, kdo, perform. cbn [tbind rg]. split; [exact I|]. intros ids Hi. cbn [learn].
    split; [exact I|]. intros ph Hp. cbn [learn]. destruct (H) as (H1 & H2 & H3).
    rewrite (Hi eq_refl _ H1), (Hp eq_refl _ H2). apply good_reply_to; auto.
  Qed.
  Lemma good_look {A} T (f : comms -> res A) : good T (look_comms f).
  Proof. unfold look_comms. gb; [gq | apply good_res]. Qed.
  Lemma good_with {A} T (f : comms -> res (comms * A)) : good T (with_comms f).
  Proof. unfold with_comms. gb; [gq|]. gb; [apply good_res|]. gb; [gq | apply good_ret]. Qed.
  Lemma good_target T p ty md ct bufs : good T (target_publish E p ty md ct bufs).
  Proof. unfold target_publish. gb; [apply good_look|]. destruct (t_manager a); [apply good_publish | apply good_stuck]. Qed.
  Hint Resolve good_ret good_throw good_stuck good_res good_guid good_now good_header good_publish good_reply good_look good_with good_target : gd.
  Ltac gd := repeat first [ solve [auto with gd] | gq | gb | apply good_mark; exact I | apply good_catch | apply good_attempt ].
  Lemma good_api0 T o : good T (api0 E o).
  Proof.
    destruct o; cbn [api0]; unfold publish_execution_input, comm_open_msg, comm_close_msg, comm_send_msg; gd.
  Qed.
  Lemma good_embed0 {A} T (t : ucode0 U A) : good T (embed0 E t).
  Proof. induction t as [a|e|w|o k IH]; cbn [embed0]; gd. apply good_api0. Qed.
  Hint Resolve good_api0 good_embed0 : gd.
  Lemma good_input_reply T v : good T (input_reply E v).
  Proof. unfold input_reply. gd. destruct a as [[|n]|]; gd. destruct a; gd. Qed.
  Hint Resolve good_input_reply : gd.
  Lemma good_stdin T w : good T (dispatch_stdin E w).
  Proof. unfold dispatch_stdin, log. gd. Qed.
  Hint Resolve good_stdin : gd.
  Lemma good_pid T c' {A} (f : list string -> kprog U A) :
    (forall ids, (c' = c -> ids = m_ids m) -> good T (f ids)) -> good T (tbind (kdo (KPid c')) f).
  Proof.
    intros Hf g H. unfold kdo, perform. cbn [tbind rg]. split; [exact I|]. intros ids Hi. cbn [learn].
    apply Hf; auto. intros Hc. exact (Hi Hc _ (proj1 H)).
  Qed.
  Lemma good_phdr T c' {A} (f : json -> kprog U A) :
    (forall h, (c' = c -> h = m_header (m_base m)) -> good T (f h)) -> good T (tbind (kdo (KPhdr c')) f).
  Proof.
    intros Hf g H. unfold kdo, perform. cbn [tbind rg]. split; [exact I|]. intros ids Hi. cbn [learn].
    apply Hf; auto. intros Hc. exact (Hi Hc _ (proj1 (proj2 H))).
  Qed.
  Lemma good_send_stdin T ty md ct : good T (send_stdin E ty md ct).
  Proof.
    unfold send_stdin. apply good_pid. intros ids Hids. gb; [apply good_header|]. apply good_phdr. intros h Hh. cbv zeta.
    unfold log. gb; [apply good_res|]. gb; [apply good_res|]. gb; [|gd].
    intros g H. split; [|intros; exact H]. intros Hc. cbn. auto.
  Qed.
  Hint Resolve good_send_stdin : gd.
  Lemma good_api1 T o : good T (api1 E o).
  Proof.
    destruct o; cbn [api1]; unfold blocking_input_request, input_request; [exact (good_api0 T o)| |]; gd.
    match goal with |- context [match ?x with inl _ => _ | inr _ => _ end] => destruct x end; gd.
  Qed.
  Hint Resolve good_api1 : gd.
  Lemma good_embed {A} T (t : ucode U A) : good T (embed E t).
  Proof. induction t as [a|e|w|o k IH]; cbn [embed]; gd. Qed.
  Hint Resolve good_embed : gd.
  Lemma good_interp T r : good T (interp E r).
  Proof. unfold interp. gd. Qed.
  Hint Resolve good_interp : gd.
  Lemma good_embed_returns {A} T (t : ucode U A) g : inv T g -> rg c PA g (embed E t) (fun g a => inv T g /\ can_return t a) (inv T).
  Proof.
    revert g. induction t as [a|e|w|o k IH]; intros g H; cbn [embed rg can_return]; auto.
    eapply rg_bind with (Q := fun g _ => inv T g).
    - apply good_attempt; auto using good_api1.
    - intros g' r H'. eapply rg_impl; [apply IH; exact H'| |]; cbn; auto. intros g2 a [H2 H3]. split; eauto.
  Qed.
  Lemma good_internal T w : good T (dispatch_internal E w).
  Proof. unfold dispatch_internal. gd. Qed.
  Hint Resolve good_internal : gd.
  Lemma good_api2 T o : good T (api2 E o).
  Proof. destruct o; cbn [api2]; [exact (good_api1 T o)|]; unfold send_to_shell.
    destruct (dump EStrict message) as [t| |] eqn:Ht; cbn [of_res tbind]; gd. destruct (e_split E); gd.
    intros g H. split; [now exists message, t|]. intros x _. exact H.
  Qed.
  Hint Resolve good_api2 : gd.
  Lemma good_embed2 {A} T (t : ucode2 U A) : good T (embed2 E t).
  Proof. induction t as [a|e|w|o k IH]; cbn [embed2]; gd. Qed.
  Hint Resolve good_embed2 : gd.
  (** Aborting the queue. *)
  Lemma good_abort_request T w : In w T -> good T (abort_request E w).
  Proof.
    intros Hw. unfold abort_request. intros g H.
    eapply rg_bind with (Q := fun g r => inv T g /\ forall m', r = Some m' -> accepted E w m').
    - apply rg_catch.
      + unfold accepted. destruct (deserialize (e_crypto E) (e_auth E) w) as [m'|e|]; cbn; auto.
        split; auto. intros x [= <-]. auto.
      + intros g' H'. cbn. split; auto. discriminate.
    - intros g' r [H' Hr]. destruct r as [m'|]; [|exact H']. revert g' H'. cbv zeta.
      change (good T (msg_type <-- of_res (value_string "msg_type" "" (m_header (m_base m')));; ty <-- of_res (reply_type_of msg_type);;
                      send_reply_to E (m_ids m') ty (m_header (m_base m')) empty (jobj [("status", JStr "error")]) SHELL)).
      gb; [apply good_res|]. gb; [apply good_res|]. apply good_reply_to. right. split; auto. exists w, m'. auto.
  Qed.
  Lemma inv_incl T T' g : incl T T' -> inv T' g -> inv T g.
  Proof. intros Hi (A & B & C). repeat split; auto. intros x Hx. auto. Qed.
  Lemma good_abort_loop n : forall T, good T (abort_loop E n).
  Proof.
    induction n as [|n IH]; intros T; cbn [abort_loop]; [apply good_ret|]. intros g H. unfold kdo, perform. cbn [tbind rg]. split; [exact I|].
    intros [w|] _; cbn [learn]; [|exact H].
    eapply rg_impl; [apply (good_bind (w :: T))| |].
    - apply good_abort_request. now left.
    - intros _. apply IH.
    - destruct H as (A & B & C). repeat split; auto. cbn. intros x [->|Hx]; cbn; auto.
    - intros g' a. apply inv_incl. intros x Hx; now right.
    - intros g'. apply inv_incl. intros x Hx; now right.
  Qed.
  Hint Resolve good_abort_loop : gd.
  Lemma good_handlers T ty h m' : mfind ty (handlers E) = Some h -> good T (h m' c).
  Proof.
    intros H. unfold handlers in H. cbn [mfind] in H.
    repeat match type of H with (if String.eqb ?a ?b then _ else _) = _ => destruct (String.eqb a b); [injection H as <-|] end; [..|discriminate].
    - unfold execute_request, interp_execute, get_metadata, publish_execution_input, abort_queue. cbv zeta. gd.
      + destruct a0; gd. destruct (Z.eqb _ _); gd.
      + destruct (_ && _); gd.
      + destruct (_ && _); gd.
    - unfold complete_request. cbv zeta. gd.
    - unfold inspect_request. cbv zeta. gd.
    - unfold history_request. gd.
    - unfold is_complete_request. gd.
    - unfold comm_info_request. cbv zeta. gd.
    - unfold comm_open, run_callback. cbv zeta. gd. destruct a0 as [[p t]|]; gd.
      + destruct (t_callback t); gd.
      + destruct a2; gd.
    - unfold comm_close, run_handler. gd. destruct a0; gd. destruct (c_close a0); gd.
    - unfold comm_msg, run_handler. gd. destruct a0; gd. destruct (c_message a0); gd.
    - unfold kernel_info_request. gd.
    - unfold shutdown_request. cbv zeta. gd.
    - unfold interrupt_request. gd.
    - unfold debug_request, get_metadata. destruct (e_debugger E); cbv zeta; gd.
  Qed.
  Lemma good_handle T ty : good T (handle E ty m c).
  Proof. unfold handle. destruct (mfind ty (handlers E)) eqn:Hf; gd. eapply good_handlers; eauto. Qed.
End Kernel.

Lemma rg_weaken {U A} c (P P' : ghost -> event -> Prop) g (p : kprog U A) Q X :
  (forall g e, P g e -> P' g e) -> rg c P g p Q X -> rg c P' g p Q X.
Proof.
  intros HP. revert g; induction p as [a|e|w|o k IH]; intros g H; cbn in *; auto. destruct H as [Hm H]. split; auto.
  destruct o; cbn in *; auto.
Qed.
(** The first event of the thread. *)
Definition first_is (b : event) (g : ghost) : Prop := exists l, g_out g = (l ++ [b])%list.
Lemma rg_first {U A} c P b g (p : kprog U A) Q X : rg c P g p Q X -> first_is b g ->
  rg c (fun g e => P g e /\ first_is b g) g p (fun g a => Q g a /\ first_is b g) (fun g => X g /\ first_is b g).
Proof.
  revert g; induction p as [a|e|w|o k IH]; intros g H Hb; cbn in *; auto. destruct H as [Hm H]. split; [destruct o; cbn in *; auto|].
  intros x Hx. apply IH; auto. destruct Hb as [l Hl]. destruct o; cbn in *; try (exists l; exact Hl).
  - exists (e :: l). cbn. now rewrite Hl.
  - destruct x; exists l; exact Hl.
Qed.

Lemma rg_internal {U} (E : env U) c m w g : inv m [] g -> g_out g = [] ->
  rg c (PA E c m) g (dispatch_internal E w) (fun g r => inv m [] g /\ asked_interpreter E w (rev (g_out g)) r) (fun _ => True).
Proof.
  intros H Hg. unfold dispatch_internal. destruct w as [|t rest]; cbn [pop bind of_res tbind]; [exact I|].
  destruct (parse t) as [j|e|] eqn:Hp; cbn [of_res tbind]; try exact I. unfold interp, emit, kdo, perform. cbn [tbind rg may learn].
  split; [exact I|]. intros _ _. set (g1 := {| g_pid := _ |}).
  assert (H1 : inv m [] g1) by exact H.
  assert (F1 : first_is (EInterp (RInternal j)) g1) by (exists []; cbn; now rewrite Hg).
  eapply rg_bind with (Q := fun g a => (inv m [] g /\ can_return (e_interp E (RInternal j)) a) /\ first_is (EInterp (RInternal j)) g).
  - apply rg_weaken with (P := fun g e => PA E c m g e /\ first_is (EInterp (RInternal j)) g); [tauto|].
    eapply rg_impl; [apply rg_first; [apply (good_embed_returns E c m []); exact H1|exact F1]| |]; auto.
  - intros g2 a [[H2 H3] [l Hl]]. apply rg_bind with (Q := fun g' text => g' = g2 /\ dump (e_eh E) a = Ok text).
    + apply rg_res; auto.
    + intros g3 text [-> Ht]. cbn. split; auto. exists t, rest, j, a, text. repeat split; auto.
      exists (rev l). rewrite Hl, rev_app_distr. reflexivity.
Qed.

Section Dispatch.
  Context {U : Type} (E : env U) (c : channel) (w : frames).
  (** The thread of channel [c] is handling the frames [w]: they were accepted, [e] is attributed to
      them, and the first event is the busy status. *)
  Definition attributed_to (g : ghost) (e : event) : Prop :=
    exists m, accepted E w m /\ attributed E c m (g_took g) e /\
      (g_out g = [] -> status_event E "busy" c (m_header (m_base m)) e).
  (** The events of a complete call (the last one first): none when the frames are rejected; else
      from the busy status to the idle status, and the parent is recorded. *)
  Definition bracketed (g0 g : ghost) : Prop :=
    (g = g0 /\ rejected E w) \/
    exists m i l b, accepted E w m /\ inv m [] g /\ g_out g = (i :: l ++ [b])%list /\
      status_event E "idle" c (m_header (m_base m)) i /\ status_event E "busy" c (m_header (m_base m)) b.

  Lemma rg_status (P : ghost -> event -> Prop) st h g (Q : ghost -> unit -> Prop) (X : ghost -> Prop) :
    g_phdr g = Some h ->
    (forall e, status_event E st c h e ->
       P g e /\ Q {| g_pid := g_pid g; g_phdr := g_phdr g; g_took := g_took g; g_out := e :: g_out g |} tt) -> X g ->
    rg c P g (publish_status E st c) Q X.
  Proof.
    intros Hh H HX. unfold publish_status, publish_message, new_header, new_guid, now, kdo, perform.
    cbn [tbind rg may]. split; [exact I|]. intros n1 _. cbn [learn tbind rg may]. split; [exact I|]. intros n2 _. cbn [learn tbind rg may].
    split; [exact I|]. intros p Hp. cbn [learn]. specialize (Hp eq_refl _ Hh). subst p.
    unfold log, emit. destruct (e_logger E _); cbn; auto.
    destruct (pub_serialize _ _ _ _); cbn; auto.
    match goal with |- P g ?e /\ _ => destruct (H e) as [H1 H2] end.
    { eexists _, _, _. split; [reflexivity|]. split; [apply header_with_make|]. cbn. auto 10. }
    split; auto. intros [] _. exact H2.
  Qed.

  Lemma rg_dispatch g0 : g_out g0 = [] -> rg c attributed_to g0 (dispatch E w c) (fun g _ => bracketed g0 g) (fun _ => True).
  Proof.
    intros H0.
    unfold dispatch. destruct (deserialize (e_crypto E) (e_auth E) w) as [m|e|why] eqn:Hd; cbn [of_res tbind catch_std]; [| |exact I].
    2:{ destruct e as [what|t]; cbn; [left; split; auto; eexists; exact Hd | exact I]. }
    cbv zeta. unfold log. destruct (e_logger E _); cbn [of_res tbind]; try exact I.
    unfold set_parent, kdo, perform. cbn [tbind rg]. split; [reflexivity|]. intros x1 _. cbn [learn]. split; [reflexivity|]. intros x2 _. cbn [learn].
    eapply rg_bind with (Q := fun g _ => inv m [] g /\ exists b, status_event E "busy" c (m_header (m_base m)) b /\ first_is b g).
    { eapply rg_status with (h := m_header (m_base m)); [reflexivity| |exact I].
      intros b Hb. split.
      { exists m. split; auto. split; auto. destruct Hb as (p & f & id & -> & _ & _ & Hp & _). cbn. auto. }
      split; [repeat split; intros x []|]. exists b. split; auto. exists []. cbn. now rewrite H0. }
    intros g _ [Hi (b & Hb & Hf)].
    apply rg_weaken with (P := fun g e => PA E c m g e /\ first_is b g).
    { intros g' e [He [l Hl]]. exists m. split; auto. split; auto. intros Hn. rewrite Hn in Hl. destruct l; discriminate. }
    eapply rg_bind with (Q := fun g _ => inv m [] g /\ first_is b g); [eapply rg_impl; [apply rg_first; [apply (good_res E c m []); exact Hi|exact Hf]| |]; auto|].
    intros g1 ty [H1 F1].
    eapply rg_bind with (Q := fun g _ => inv m [] g /\ first_is b g); [eapply rg_impl; [apply rg_first; [apply (good_handle E c m []); exact H1|exact F1]| |]; auto|].
    intros g2 _ [H2 F2]. eapply rg_status with (h := m_header (m_base m)); [apply H2| |exact I].
    intros i Hs. split.
    - split; auto. destruct Hs as (p & f & id & -> & _ & _ & Hp & _). cbn. auto.
    - right. destruct F2 as [l Hl]. exists m, i, l, b. cbn [g_out]. rewrite Hl. auto.
  Qed.
End Dispatch.
