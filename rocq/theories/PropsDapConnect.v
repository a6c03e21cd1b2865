(** The debug adapter client with the debugger and the adapter around it: C103. *)
From Verif Require Import Base BaseFacts Json JsonText JsonTextProofs JsonParseProofs Auth Message Dap DapSpec DapProofs DapQueue DapLive LoggerProofs DapConnect DapConnectSpec DapConnectProofs PropsDap.

(** C103. A server, or a client whose adapter speaks first; nobody else connects; the adapter answers each request once, between
    events, and the handlers of events neither fail nor send requests. Then whatever order things happen in, the client does not
    die, and after finitely many steps every request has been forwarded and answered, or the client has been told to stop. *)
Theorem C103_served : forall E A (adapter : A -> string -> A * list string) P server a hello todo,
  dp_parallel E = false -> answers_each adapter -> handles_events E P -> P "" -> headers_meet P todo ->
  Forall adapter_message hello -> answers 0 hello -> server = true \/ hello <> [] ->
  will (wstep E adapter false) (served E todo) (world0 E server a hello todo).
Proof. intros. eapply inv_will; eauto. eapply inv_start; eauto. Qed.
Print Assumptions C103_served.
Theorem C103_alive : forall E A (adapter : A -> string -> A * list string) P server a hello todo w,
  dp_parallel E = false -> answers_each adapter -> handles_events E P -> P "" -> headers_meet P todo ->
  Forall adapter_message hello -> answers 0 hello -> server = true \/ hello <> [] -> wruns E adapter false (world0 E server a hello todo) w ->
  w_dead w = false /\ exists w', wruns E adapter false w w' /\ served E todo w'.
Proof.
  intros E A adapter P server a hello todo w H1 H2 H3 H4 H5 H6 H7 H8 R.
  assert (inv P todo w) as I by (eapply inv_runs; eauto; eapply inv_start; eauto). split; [apply I|].
  pose proof (inv_will E adapter P todo H2 H3 w I) as W. clear - W. induction W as [w S|w (w1 & S) _ IH]; [exists w; split; [apply WR_refl|exact S]|].
  destruct (IH w1 S) as (w' & R & Sv). exists w'. split; [|exact Sv]. clear - S R. induction R; [eapply WR_step; [apply WR_refl|exact S]|eapply WR_step; eauto].
Qed.
Print Assumptions C103_alive.

(** The notification of a connection is taken for the beginning of a message. *)
Section Silent.
  Context (E : dapenv) {A : Type} (adapter : A -> string -> A * list string) (strangers : bool).
  Definition quiet_world (w : world (A := A)) : Prop :=
    w_dead w = false /\ w_round w = Some (false, false, true) /\ w_note w = false /\ w_pipe w = "" /\ sconcat (c_net (w_c w)) = "" /\
    c_queue (w_c w) = [] /\ c_log (w_c w) = [AAck true] /\ c_stop (w_c w) = false.
  Lemma empty_waits net : sconcat net = "" -> exists q, handle_tcp net [] = ([], q, Waits).
  Proof.
    intros Z. destruct (handle_tcp_stream [] "" net []) as (b1 & b2 & used & net' & o & Ht & Eb & _ & Ho).
    { exists []. split; [constructor|]. rewrite Z. reflexivity. }
    symmetry in Eb. apply app_eq_nil in Eb as (-> & ->). destruct Ho as [(-> & -> & _)|(_ & X & _)]; [|congruence]. eauto.
  Qed.
  Lemma quiet_iteration c : sconcat (c_net c) = "" -> c_queue c = [] -> exists q, iteration E false false true c = (set_net [] (set_queue q c), Waits).
  Proof.
    intros Z Q. destruct (empty_waits _ Z) as (q & Ht). exists q. unfold iteration, when, dbind, dret, handle_tcp_socket. rewrite Q, Ht. reflexivity.
  Qed.
  Lemma quiet_settle w : quiet_world w -> settle E w = w /\ c_log (now E w) = [AAck true] /\ c_stop (now E w) = false.
  Proof.
    intros (D & R & _ & _ & Z & Q & L & St). unfold settle, now. rewrite R. destruct (quiet_iteration _ Z Q) as (q & ->). cbn. auto.
  Qed.
  Lemma quiet_step w w' : quiet_world w -> wstep E adapter strangers w w' -> quiet_world w'.
  Proof.
    intros Qw S. pose proof (quiet_settle w Qw) as (_ & Ln & _). pose proof Qw as (D & R & N & Pp & Z & Q & L & St). destruct S.
    - repeat split; auto.
    - repeat split; auto.
    - congruence.
    - assert (quiet_world (with_c (add_net "" (w_c w)) w)) as X by (repeat split; auto; cbn; rewrite sconcat_app; cbn; now rewrite Z).
      destruct (quiet_settle _ X) as (-> & _). exact X.
    - rewrite Pp in H0. destruct x; [congruence|discriminate].
    - rewrite Ln in H. destruct (w_seen w); discriminate.
    - congruence.
  Qed.
End Silent.
(** C103. With an adapter that waits to be asked, a client (and a server to which somebody else connects) can come to wait for a message
    of the adapter and never do anything else: nothing is forwarded, nothing answered, whatever happens. *)
Theorem C103_silent : forall E A (adapter : A -> string -> A * list string) strangers server a todo, server = false \/ strangers = true ->
  exists w, wruns E adapter strangers (world0 E server a [] todo) w /\ c_hdr (now E w) = [] /\ c_ctl (now E w) = [] /\ w_todo w = todo /\
    forall w', wruns E adapter strangers w w' ->
      w_dead w' = false /\ sent_out (c_log (now E w')) = [] /\ replies (c_log (now E w')) = [] /\ c_stop (now E w') = false.
Proof.
  intros E A adapter strangers server a todo Sv.
  assert (exists w, wruns E adapter strangers (world0 E server a [] todo) w /\ quiet_world w /\ c_hdr (w_c w) = [] /\ c_ctl (w_c w) = [] /\ w_todo w = todo) as (w & R & Qw & H1 & H2 & H3).
  { set (c0 := set_attach (dp_parallel E) (log (AAck true) (c_init [] [] []))).
    set (w1 := {| w_c := add_net "" c0; w_round := None; w_dead := false; w_note := false; w_pipe := ""; w_ad := a; w_seen := 0; w_todo := todo |}).
    assert (quiet_world (with_round (Some (false, false, true)) w1)) as Qw by (repeat split).
    exists (with_round (Some (false, false, true)) w1). split; [|split; [exact Qw|cbn; auto]].
    destruct (quiet_settle E _ Qw) as (Es & _). rewrite <- Es.
    apply (WR_step _ _ _ _ w1); [|apply W_poll; auto; repeat split; try discriminate].
    eapply WR_step; [apply WR_refl|]. destruct server.
    - destruct Sv as [Sv|Sv]; [discriminate|]. apply (W_stranger E adapter strangers (world0 E true a [] todo) Sv eq_refl).
    - apply (W_note E adapter strangers (world0 E false a [] todo) eq_refl). }
  exists w. split; [exact R|]. assert (c_hdr (now E w) = c_hdr (w_c w) /\ c_ctl (now E w) = c_ctl (w_c w)) as (-> & ->).
  { destruct Qw as (D & Rr & _ & _ & Z & Q & _). unfold now. rewrite Rr. destruct (quiet_iteration E _ Z Q) as (q & ->). auto. }
  split; [exact H1|]. split; [exact H2|]. split; [exact H3|]. intros w' R'. assert (quiet_world w') as Q' by (induction R'; eauto using quiet_step).
  destruct (quiet_settle E w' Q') as (_ & L & St). rewrite L. split; [apply Q'|]. split; [reflexivity|]. split; [reflexivity|exact St].
Qed.
Print Assumptions C103_silent.

(** The adapter of the examples: an event and an answer. *)
Definition demo_adapter (n : nat) (b : string) : nat * list string := (S n, [ev_out; re_attach]).
Definition header_ok (h : string) : Prop := h = "" \/ exists j, parse h = Ok j.
Lemma demo_answers : answers_each demo_adapter.
Proof.
  intros n b. cbn. split.
  - repeat constructor; try (vm_compute; reflexivity); eexists; vm_compute; reflexivity.
  - apply answers_event; [|apply answers_one; [|constructor]].
    + intros (j & P & N). apply N. vm_compute in P. injection P as <-. reflexivity.
    + eexists. split; [vm_compute; reflexivity|]. intros X. vm_compute in X. discriminate X.
Qed.
Lemma demo_handles : handles_events (demo_dap false) header_ok.
Proof.
  split; [|intros l p j u [<-|[]]; eauto].
  intros raw j c Pr _ Hp. apply parse_good in Pr as (_ & V). apply dump_valid in V as (t & V).
  assert (exists p tp, (if String.eqb (c_parent c) "" then Done (JObj []) else io_of (parse (c_parent c))) = Done p /\ dump EStrict p = Ok tp) as (p & tp & Ep & Dp).
  { destruct (String.eqb_spec (c_parent c) ""); [eexists _, _; split; [reflexivity|vm_compute; reflexivity]|]. destruct Hp as [Hp|(p & Hp)]; [contradiction|].
    pose proof (parse_good _ _ Hp) as (_ & Vp). apply dump_valid in Vp as (tp & Vp). exists p, tp. rewrite Hp. auto. }
  assert (forall c', c_parent c' = c_parent c -> exists c'', forward_event (demo_dap false) j c' = (c'', Done tt)) as F.
  { intros c' Hc. unfold forward_event, dbind, dlift. cbn [dp_callback demo_dap io_of c_parent log set_ids]. rewrite Hc, Ep.
    unfold pub_serialize, base_serialize. cbn [m_pbase m_header m_parent_header m_metadata m_content m_buffers].
    match goal with |- context [dump EStrict (make_header ?a ?b ?c ?d ?e)] => assert (exists h, dump EStrict (make_header a b c d e) = Ok h) as (h & ->) by (eexists; vm_compute; reflexivity) end.
    cbn [bind]. rewrite Dp. cbn [bind]. assert (exists m, dump EStrict (JObj []) = Ok m) as (m & ->) by (eexists; vm_compute; reflexivity). cbn [bind]. rewrite V. cbn [bind io_of].
    eexists. reflexivity. }
  unfold handle_event. cbn [dp_event demo_dap]. destruct (F (log (AEvent j) c) eq_refl) as (c'' & Fc).
  unfold dbind at 1. cbn [ucalls]. unfold dbind. rewrite Fc. reflexivity.
Qed.
(** Two requests and a header; the adapter starts with an event. *)
Definition demo_todo : list question := [AskHeader "{""msg_id"":""h""}"; AskRequest (dap_frame rq_attach); AskRequest (dap_frame "{""seq"":9}")].
Example C103_ex : answers_each demo_adapter /\ handles_events (demo_dap false) header_ok /\ header_ok "" /\ headers_meet header_ok demo_todo /\
  Forall adapter_message [ev_init] /\ answers 0 [ev_init] /\
  will (wstep (demo_dap false) demo_adapter false) (served (demo_dap false) demo_todo) (world0 (demo_dap false) false 0 [ev_init] demo_todo) /\
  will (wstep (demo_dap false) demo_adapter false) (served (demo_dap false) demo_todo) (world0 (demo_dap false) true 0 [] demo_todo).
Proof.
  assert (headers_meet header_ok demo_todo) as Hm. { intros h [X|[X|[X|[]]]]; try discriminate X. injection X as <-. right. eexists. vm_compute. reflexivity. }
  assert (Forall adapter_message [ev_init]) as Fi by (constructor; [split; [vm_compute; reflexivity|eexists; vm_compute; reflexivity]|constructor]).
  assert (answers 0 [ev_init]) as Ai. { apply answers_event; [|constructor]. intros (j & P & N). apply N. vm_compute in P. injection P as <-. reflexivity. }
  split; [exact demo_answers|]. split; [exact demo_handles|]. split; [left; reflexivity|]. split; [exact Hm|]. split; [exact Fi|]. split; [exact Ai|].
  split; (apply (C103_served (demo_dap false) nat demo_adapter header_ok); [reflexivity|exact demo_answers|exact demo_handles|left; reflexivity|exact Hm| | |]);
    auto; try constructor; try discriminate; reflexivity.
Qed.

(** C103. So the condition on who speaks first cannot be dropped: from some state that is reached there is no way to have the request answered. *)
Theorem C103_client_refuted : ~ (forall E A (adapter : A -> string -> A * list string) P server a hello todo w,
  dp_parallel E = false -> answers_each adapter -> handles_events E P -> P "" -> headers_meet P todo ->
  Forall adapter_message hello -> answers 0 hello -> wruns E adapter false (world0 E server a hello todo) w ->
  exists w', wruns E adapter false w w' /\ served E todo w').
Proof.
  intros H. destruct (C103_silent (demo_dap false) nat demo_adapter false false 0 [AskRequest rq_attach] (or_introl eq_refl)) as (w & R & _ & _ & _ & N).
  destruct (H (demo_dap false) nat demo_adapter header_ok false 0 [] [AskRequest rq_attach] w eq_refl demo_answers demo_handles (or_introl eq_refl)) as (w' & R' & _ & _ & S);
    [intros h [X|[]]; discriminate X|constructor|constructor|exact R|].
  destruct (N w' R') as (_ & So & _ & St). destruct S as [(_ & _ & S)|S]; [|congruence].
  assert (forall l, sent_out l = [] -> requests l = []) as K. { induction l as [|[] l IH]; cbn; auto; discriminate. }
  rewrite (K _ So) in S. discriminate S.
Qed.
Print Assumptions C103_client_refuted.
(** C103. Nor can the condition that nobody else connects. *)
Theorem C103_stranger_refuted : ~ (forall E A (adapter : A -> string -> A * list string) P a hello todo w,
  dp_parallel E = false -> answers_each adapter -> handles_events E P -> P "" -> headers_meet P todo ->
  Forall adapter_message hello -> answers 0 hello -> wruns E adapter true (world0 E true a hello todo) w ->
  exists w', wruns E adapter true w w' /\ served E todo w').
Proof.
  intros H. destruct (C103_silent (demo_dap false) nat demo_adapter true true 0 [AskRequest rq_attach] (or_intror eq_refl)) as (w & R & _ & _ & _ & N).
  destruct (H (demo_dap false) nat demo_adapter header_ok 0 [] [AskRequest rq_attach] w eq_refl demo_answers demo_handles (or_introl eq_refl)) as (w' & R' & _ & _ & S);
    [intros h [X|[]]; discriminate X|constructor|constructor|exact R|].
  destruct (N w' R') as (_ & So & _ & St). destruct S as [(_ & _ & S)|S]; [|congruence].
  assert (forall l, sent_out l = [] -> requests l = []) as K. { induction l as [|[] l IH]; cbn; auto; discriminate. }
  rewrite (K _ So) in S. discriminate S.
Qed.
Print Assumptions C103_stranger_refuted.

(** C103. Nor can the condition that the adapter sends objects: a message that is no JSON text ends the client's thread, and then no
    request is forwarded or answered. *)
Theorem C103_garbage_refuted : forall A (adapter : A -> string -> A * list string) strangers a todo, exists w,
  wruns (demo_dap false) adapter strangers (world0 (demo_dap false) true a ["no"] todo) w /\
  forall w', wruns (demo_dap false) adapter strangers w w' -> w_dead w' = true /\ sent_out (c_log (now (demo_dap false) w')) = [] /\ replies (c_log (now (demo_dap false) w')) = [].
Proof.
  intros A adapter strangers a todo. set (E := demo_dap false). set (w0 := world0 E true a ["no"] todo).
  set (w1 := with_pipe false "" (with_c (add_net (dap_frame "no") (w_c w0)) w0)).
  assert (S1 : wstep E adapter strangers w0 w1) by (apply (W_bytes E adapter strangers w0 (dap_frame "no") ""); [reflexivity|vm_compute; reflexivity|vm_compute; discriminate]).
  assert (S2 : wstep E adapter strangers w1 (settle E (with_round (Some (false, false, true)) w1))) by (apply W_poll; [reflexivity|reflexivity|reflexivity|]; repeat split; try discriminate).
  exists (settle E (with_round (Some (false, false, true)) w1)). split; [eapply WR_step; [eapply WR_step; [apply WR_refl|exact S1]|exact S2]|].
  assert (K : forall w', wruns E adapter strangers (settle E (with_round (Some (false, false, true)) w1)) w' -> w_dead w' = true /\ w_round w' = None /\ c_log (w_c w') = [AAck true]).
  { induction 1 as [|w' w'' _ (D & R & L) S]; [vm_compute; auto|]. destruct S; cbn [w_dead w_round w_c with_c with_todo with_pipe with_round with_adapter]; auto; try congruence.
    - unfold settle. cbn. rewrite R. cbn. auto.
    - unfold settle. cbn. rewrite R. cbn. auto.
    - unfold settle. cbn. rewrite R. cbn. auto. }
  intros w' R'. destruct (K w' R') as (D & R & L). unfold now. rewrite R, L. auto.
Qed.
Print Assumptions C103_garbage_refuted.
