(** C106: which message on the stdin socket answers an input request. *)
From Verif Require Import Base BaseFacts Json JsonText Auth Message WireLemmas History Comm Tree Kernel KernelSpec KernelDemo Server ServerSpec Split SplitSpec SplitRaceSpec SplitRace ServerExec ServerDemo AskedSpec AskedProofs.

(** In every run of the default server, each value given to an input handler is that of the message with
    the number of the last request, it is given once, and after the message has arrived; as many
    messages have been read as requests sent, but for the last request while the kernel waits for its
    message; and the variable that [blocking_input_request] returns has the value of the message with
    the number of the last request, or is empty. *)
Theorem C106_turns : forall U (E : env U) k0 start ls s, k_value k0 = None ->
  drun (fun c w => dispatch E w c) (d_init k0 start) ls s ->
  in_turn E (k_stdin k0) (on_stdin ls) /\ even (k_stdin k0) (on_stdin ls) (m_k (d_mem s)) (d_waits s) /\
  own_value E (k_stdin k0) (on_stdin ls) (m_k (d_mem s)).
Proof. intros U E k0 start ls s Hv H. exact (default_turns E (k_stdin k0) k0 start ls s eq_refl Hv H). Qed.
Print Assumptions C106_turns.
(** The hypothesis holds of every kernel that has been started, whatever its interpreter has asked for when
    it was configured. *)
Theorem C106_start : forall U (E : env U) u q k0 r, run (kernel_start E) (kinit u q) = (k0, r) -> (forall why, r <> UB why) -> k_value k0 = None.
Proof. exact @start_value. Qed.
Print Assumptions C106_start.
(** The same of the split servers, if only the code that runs in the shell thread asks for input. *)
Theorem C106_split : forall U v (E : env U) k0 start ls s, e_split E = true -> k_value k0 = None ->
  (forall c w, In (YArrive c w) ls -> well_placed E c w) ->
  yrun v (fun c w => dispatch E w c) (dispatch_internal E) (y_init k0 start) ls s ->
  in_turn E (k_stdin k0) (y_on_stdin ls) /\ even (k_stdin k0) (y_on_stdin ls) (m_k (y_mem s)) (y_waits s) /\
  own_value E (k_stdin k0) (y_on_stdin ls) (m_k (y_mem s)).
Proof. intros U v E k0 start ls s Hs Hv Hw H. exact (split_turns E (k_stdin k0) v Hs k0 start ls s eq_refl Hv Hw H). Qed.
Print Assumptions C106_split.
(** With polite clients, which answer each request once, after they have received it, every value is that
    of an answer to the last request. *)
Theorem C106_polite : forall U (E : env U) k0 start ls s, k_value k0 = None ->
  drun (fun c w => dispatch E w c) (d_init k0 start) ls s -> polite E (k_stdin k0) (on_stdin ls) ->
  (forall l1 h v l2, on_stdin ls = (l1 ++ OInput h v :: l2)%list -> own_answer E (k_stdin k0) l1 v) /\
  (forall v, k_value (m_k (d_mem s)) = Some v -> v = "" \/ own_answer E (k_stdin k0) (on_stdin ls) v).
Proof.
  intros U E k0 start ls s Hv H HP. destruct (C106_turns U E k0 start ls s Hv H) as (A & _ & B). split; [now apply polite_turns|now apply polite_value].
Qed.
Print Assumptions C106_polite.
Theorem C106_polite_split : forall U v (E : env U) k0 start ls s, e_split E = true -> k_value k0 = None ->
  (forall c w, In (YArrive c w) ls -> well_placed E c w) ->
  yrun v (fun c w => dispatch E w c) (dispatch_internal E) (y_init k0 start) ls s -> polite E (k_stdin k0) (y_on_stdin ls) ->
  (forall l1 h x l2, y_on_stdin ls = (l1 ++ OInput h x :: l2)%list -> own_answer E (k_stdin k0) l1 x) /\
  (forall x, k_value (m_k (y_mem s)) = Some x -> x = "" \/ own_answer E (k_stdin k0) (y_on_stdin ls) x).
Proof.
  intros U v E k0 start ls s Hs Hv Hw H HP. destruct (C106_split U v E k0 start ls s Hs Hv Hw H) as (A & _ & B). split; [now apply polite_turns|now apply polite_value].
Qed.
Print Assumptions C106_polite_split.

(** ** Examples *)
(** An interpreter that asks two questions, with an input handler. *)
Definition two_questions : ucode U0 unit :=
  Do (Ar := @uans1 U0) (AOp (ASetInput (Some 7))) (fun _ =>
  Do (Ar := @uans1 U0) (AInputRequest "name?" false) (fun _ =>
  Do (Ar := @uans1 U0) (AInputRequest "age?" false) (fun _ => Ret tt))).
Definition asker_interp (r : request) : ucode U0 json :=
  match r with RExecute _ "two" _ _ _ _ => fin two_questions ok_reply_json | r => demo_interp r end.
Definition asker (split : bool) (debugger : option (json -> json -> ucode2 U0 json)) (stdin : nat -> frames) : env U0 := {|
  e_crypto := toy; e_auth := toy_auth; e_eh := EStrict; e_kernel_id := "k1"; e_user_name := "user"; e_session_id := "s1";
  e_guid := ticks; e_now := fun _ => "2024-01-01T00:00:00Z"; e_stdin := stdin; e_logger := fun _ => Ok tt;
  e_regex := fun _ => Ok (fun _ => false); e_indet := IndetVal (fun _ => false); e_long_id := fun s => Ok s;
  e_configure := Ret tt; e_interp := asker_interp; e_split := split; e_debugger := debugger;
  e_callback := demo_callback; e_handler := demo_handler; e_input := fun _ _ => Ret tt |}.
Definition two : frames := wire_of (execute "two" []).
(** A message on the stdin socket. *)
Definition typed_msg (from : string) (ty : string) (parent : json) (v : string) : frames :=
  wire_of {| m_ids := [from]; m_base := {| m_header := jobj [("msg_id", JStr "a"); ("msg_type", JStr ty)]; m_parent_header := parent;
                                           m_metadata := empty; m_content := jobj [("value", JStr v)]; m_buffers := [] |} |}.
Definition asker_run (E : env U0) cs := dexec (fun c w => dispatch E w c) cs [] (d_init demo_start ["start"]).
Lemma asker_run_ok E cs : drun (fun c w => dispatch E w c) (d_init demo_start ["start"]) (fst (asker_run E cs)) (snd (asker_run E cs)).
Proof. unfold asker_run. apply dexec_run. Qed.
(** The headers of the two requests; they do not depend on the answers. *)
Definition asked_headers (os : list stdin_obs) : list json := flat_map (fun o => match o with OAsk m => [m_header (m_base m)] | _ => [] end) os.
Definition headers : list json :=
  Eval vm_compute in asked_headers (on_stdin (fst (asker_run (asker false None stdin_msg) [(GArrive SHELL two, 1); (GStdin, 2); (GMain, 500)]))).
Definition header_of (n : nat) : json := nth n headers JNull.
(** The client's answers. *)
Definition answers (n : nat) : frames := typed_msg "peer" "input_reply" (header_of n) (match n with 0 => "Ada" | _ => "36" end).
Definition good_run := asker_run (asker false None answers) [(GArrive SHELL two, 1); (GMain, 500); (GStdin, 1); (GMain, 500); (GStdin, 1); (GMain, 500)].
Definition shape (os : list stdin_obs) : list (option (nat * string) + nat) :=
  List.map (fun o => match o with OAsk _ => inr 1 | OArrive => inr 0 | OInput h v => inl (Some (h, v)) end) os.
Lemma good_shape : exists q0 q1, on_stdin (fst good_run) = [OAsk q0; OArrive; OInput 7 "Ada"; OAsk q1; OArrive; OInput 7 "36"] /\
  m_ids q0 = ["peer"] /\ m_ids q1 = ["peer"] /\ m_header (m_base q0) = header_of 0 /\ m_header (m_base q1) = header_of 1.
Proof. eexists. eexists. split; [vm_compute; reflexivity|]. repeat split; vm_compute; reflexivity. Qed.
Ltac lists := repeat match goal with
  | H : (_ :: _)%list = (?l ++ _)%list |- _ => is_var l; destruct l as [|? l]; cbn [app] in H; injection H; clear H; intros; subst; try discriminate
  | H : [] = (?l ++ _ :: _)%list |- _ => destruct l; discriminate
  end.
Lemma good_polite : polite (asker false None answers) 0 (on_stdin (fst good_run)).
Proof.
  destruct good_shape as (q0 & q1 & -> & I0 & I1 & H0 & H1). split.
  - intros l1 l2 H. lists; cbn; lia.
  - intros n q (l1 & l2 & H & Hn) _. lists.
    + eexists. split; [vm_compute; reflexivity|]. split; [exact (eq_sym I0)|]. split; [rewrite H0; reflexivity|]. eexists. split; reflexivity.
    + eexists. split; [vm_compute; reflexivity|]. split; [exact (eq_sym I1)|]. split; [rewrite H1; reflexivity|]. eexists. split; reflexivity.
Qed.
Example C106_ex : k_value demo_start = None /\ k_stdin demo_start = 0 /\
  drun (fun c w => dispatch (asker false None answers) w c) (d_init demo_start ["start"]) (fst good_run) (snd good_run) /\
  polite (asker false None answers) 0 (on_stdin (fst good_run)) /\
  shape (on_stdin (fst good_run)) = [inr 1; inr 0; inl (Some (7, "Ada")); inr 1; inr 0; inl (Some (7, "36"))].
Proof. split; [reflexivity|]. split; [reflexivity|]. split; [exact (asker_run_ok _ _)|]. split; [exact good_polite|]. vm_compute. reflexivity. Qed.
(** The variable of [blocking_input_request]. *)
Definition blocking_run := asker_run (asker false None answers) [(GArrive SHELL ask, 1); (GMain, 500); (GStdin, 1); (GMain, 5)].
Example C106_blocking_ex :
  shape (on_stdin (fst blocking_run)) = [inr 1; inr 0] /\ k_value (m_k (d_mem (snd blocking_run))) = Some "Ada" /\ d_waits (snd blocking_run) = false.
Proof. vm_compute. auto. Qed.
(** The kernel reads its [k_stdin k0]-th message first if the interpreter has asked for input before the
    server was started. *)
Definition later_start : kstate U0 := set_stdin 1 demo_start.
Definition later_run := dexec (fun c w => dispatch (asker false None answers) w c) [(GArrive SHELL two, 1); (GMain, 500); (GStdin, 1); (GMain, 500)] [] (d_init later_start ["start"]).
Example C106_later_ex : shape (on_stdin (fst later_run)) = [inr 1; inr 0; inl (Some (7, "36")); inr 1] /\ d_waits (snd later_run) = true.
Proof. vm_compute. auto. Qed.
(** The split servers. *)
Definition y_asker_run (E : env U0) (v : variant) cs := yexec v (fun c w => dispatch E w c) (dispatch_internal E) cs [] (y_init demo_start ["start"]).
Lemma y_asker_run_ok E v cs : yrun v (fun c w => dispatch E w c) (dispatch_internal E) (y_init demo_start ["start"]) (fst (y_asker_run E v cs)) (snd (y_asker_run E v cs)).
Proof. unfold y_asker_run. apply yexec_run. Qed.
Definition y_good_run (v : variant) :=
  y_asker_run (asker true None answers) v [(YIn SHELL two, 1); (YGo TShell, 500); (YInStdin, 1); (YGo TShell, 500); (YInStdin, 1); (YGo TShell, 500)].
Lemma two_placed split debugger stdin : well_placed (asker split debugger stdin) SHELL two.
Proof.
  intros m ty Hm Hty. assert (Hm' : accepted (asker split debugger stdin) two (execute "two" [])) by (vm_compute; reflexivity).
  unfold accepted in *. rewrite Hm' in Hm. injection Hm as <-. destruct Hty as (l & Hl & Hty). injection Hl as <-. cbn in Hty. injection Hty as <-.
  apply pl_shell. cbn. intuition discriminate.
Qed.
Definition arrived (ls : list slabel) : list (channel * frames) := flat_map (fun l => match l with YArrive c w => [(c, w)] | _ => [] end) ls.
Lemma in_arrived c w ls : In (YArrive c w) ls -> In (c, w) (arrived ls).
Proof. intros H. apply in_flat_map. exists (YArrive c w). split; [exact H|now left]. Qed.
Example C106_split_ex : forall v, let E := asker true None answers in let r := y_good_run v in
  yrun v (fun c w => dispatch E w c) (dispatch_internal E) (y_init demo_start ["start"]) (fst r) (snd r) /\
  (forall c w, In (YArrive c w) (fst r) -> well_placed E c w) /\ polite E 0 (y_on_stdin (fst r)) /\
  shape (y_on_stdin (fst r)) = [inr 1; inr 0; inl (Some (7, "Ada")); inr 1; inr 0; inl (Some (7, "36"))].
Proof.
  intros v. cbv zeta. split; [exact (y_asker_run_ok _ _ _)|]. split; [|split; [|destruct v; vm_compute; reflexivity]].
  - intros c w H. apply in_arrived in H. assert (X : arrived (fst (y_good_run v)) = [(SHELL, two)]) by (destruct v; vm_compute; reflexivity).
    rewrite X in H. destruct H as [[= <- <-]|[]]. apply two_placed.
  - assert (X : y_on_stdin (fst (y_good_run v)) = on_stdin (fst good_run)) by (destruct v; vm_compute; reflexivity). rewrite X. exact good_polite.
Qed.

(** ** What the kernel does not check *)
(** One message that arrives before it was asked for, from any client, and all later values are those of
    the answers to the requests before. Here another client has sent one; the client that is asked
    answers each request once, and its first answer is taken for the second one. *)
Definition shifted (n : nat) : frames := match n with 0 => typed_msg "bob" "input_reply" JNull "hello" | S n => answers n end.
Definition late_run := asker_run (asker false None shifted) [(GStdin, 1); (GArrive SHELL two, 1); (GMain, 500); (GStdin, 1); (GMain, 500); (GStdin, 1); (GMain, 500)].
Lemma late_shape : exists q0 q1, on_stdin (fst late_run) = [OArrive; OAsk q0; OInput 7 "hello"; OAsk q1; OArrive; OInput 7 "Ada"; OArrive] /\
  m_ids q0 = ["peer"] /\ m_ids q1 = ["peer"] /\ m_header (m_base q0) = header_of 0 /\ m_header (m_base q1) = header_of 1.
Proof. eexists. eexists. split; [vm_compute; reflexivity|]. repeat split; vm_compute; reflexivity. Qed.
Lemma answers_reply (E : env U0) n q : n < 2 -> e_crypto E = toy -> e_auth E = toy_auth -> m_ids q = ["peer"] -> m_header (m_base q) = header_of n -> replies E q (answers n).
Proof.
  intros Hn H1 H2 H3 H4. unfold replies, accepted. rewrite H1, H2, H3, H4. destruct n as [|[|n]]; [| |lia]; (eexists; split; [vm_compute; reflexivity|]; split; [reflexivity|]; split; [reflexivity|]; eexists; split; reflexivity).
Qed.
Theorem C106_late_refuted : exists (E : env U0) k0 start ls s, k_value k0 = None /\ k_stdin k0 = 0 /\
  drun (fun c w => dispatch E w c) (d_init k0 start) ls s /\
  (forall n q, nth_ask (on_stdin ls) n q -> replies E q (e_stdin E (S n))) /\ asks (on_stdin ls) = 2 /\
  (exists l1 h l2, on_stdin ls = (l1 ++ OInput h "Ada" :: l2)%list) /\
  (forall l1 h v l2, on_stdin ls = (l1 ++ OInput h v :: l2)%list -> ~ own_answer E 0 l1 v).
Proof.
  exists (asker false None shifted), demo_start, ["start"], (fst late_run), (snd late_run).
  split; [reflexivity|]. split; [reflexivity|]. split; [exact (asker_run_ok _ _)|].
  destruct late_shape as (q0 & q1 & -> & I0 & I1 & H0 & H1). split; [|split; [reflexivity|split]].
  - intros n q (l1 & l2 & H & Hn). lists; apply answers_reply; auto.
  - exists [OArrive; OAsk q0; OInput 7 "hello"; OAsk q1; OArrive], 7, [OArrive]. reflexivity.
  - intros l1 h v l2 H (l & q & i & n & Hl & Hn & Hr & Hv). lists; destruct i as [|[|[|i]]]; cbn [repeat app] in *; lists; try discriminate; cbn in Hn; try lia.
    replace n with 1 in Hr by lia. destruct Hr as (m & Ha & _ & Hp & _). vm_compute in Ha. injection Ha as <-. rewrite H1 in Hp. vm_compute in Hp. discriminate.
Qed.
Print Assumptions C106_late_refuted.

(** The sender, the parent header and the type of the message are not checked: here every message arrives
    after its request, and the value given to the handler comes from another client, which was not asked,
    in a message that is no answer and of another type. *)
Definition intruder (n : nat) : frames := typed_msg "bob" "comm_msg" JNull "rm -rf".
Definition forged_run := asker_run (asker false None intruder) [(GArrive SHELL two, 1); (GMain, 500); (GStdin, 1); (GMain, 500)].
Lemma forged_shape : exists q0 q1, on_stdin (fst forged_run) = [OAsk q0; OArrive; OInput 7 "rm -rf"; OAsk q1] /\ m_ids q0 = ["peer"].
Proof. eexists. eexists. split; vm_compute; reflexivity. Qed.
Theorem C106_forged_refuted : exists (E : env U0) k0 start ls s q l v, k_value k0 = None /\ k_stdin k0 = 0 /\
  drun (fun c w => dispatch E w c) (d_init k0 start) ls s /\ after_request (on_stdin ls) /\
  on_stdin ls = (OAsk q :: OArrive :: OInput 7 v :: l)%list /\ m_ids q = ["peer"] /\ value_of E (e_stdin E 0) v /\
  exists m, accepted E (e_stdin E 0) m /\ m_ids m = ["bob"] /\ m_parent_header (m_base m) = JNull /\ typed (m_header (m_base m)) "comm_msg".
Proof.
  destruct forged_shape as (q0 & q1 & HS & HI).
  exists (asker false None intruder), demo_start, ["start"], (fst forged_run), (snd forged_run), q0, [OAsk q1], "rm -rf".
  split; [reflexivity|]. split; [reflexivity|]. split; [exact (asker_run_ok _ _)|]. rewrite HS. clear HS.
  split; [intros l1 l2 H; lists; cbn; lia|]. split; [reflexivity|]. split; [exact HI|].
  split; [eexists; eexists; split; [vm_compute; reflexivity|]; split; [reflexivity|]; left; reflexivity|].
  eexists. split; [vm_compute; reflexivity|]. split; [reflexivity|]. split; [reflexivity|]. eexists. split; reflexivity.
Qed.
Print Assumptions C106_forged_refuted.

(** In the split servers both threads use the stdin socket if the debugger (or the shutdown or kernel
    information code) asks for input. The control thread asks too, before the shell thread has been
    answered; its request is sent to the client of the last shell message; and it may be given the answer
    to the request of the shell thread. *)
Definition nosy : option (json -> json -> ucode2 U0 json) :=
  Some (fun _ _ => Do (Ar := @uans2 U0) (AOp1 (AInputRequest "debug?" false)) (fun _ => Ret ok_reply_json)).
Definition crossed_run (v : variant) :=
  y_asker_run (asker true nosy answers) v [(YIn SHELL two, 1); (YGo TShell, 500); (YIn CONTROL debug, 1); (YGo TControl, 500); (YInStdin, 1); (YGo TControl, 500); (YInStdin, 1); (YGo TShell, 500)].
Definition spoken (ls : list slabel) : list (channel * (option (nat * string) + nat)) :=
  flat_map (fun l => match l with YEvent c e => List.map (pair c) (shape (of_event e)) | YStdin => [(SHELL, inr 0)] | _ => [] end) ls.
Theorem C106_crossed_refuted : forall v, exists (E : env U0) k0 start ls s, k_value k0 = None /\ k_stdin k0 = 0 /\ e_split E = true /\
  yrun v (fun c w => dispatch E w c) (dispatch_internal E) (y_init k0 start) ls s /\
  ~ in_turn E 0 (y_on_stdin ls) /\
  exists l, spoken ls = ((SHELL, inr 1) :: (CONTROL, inr 1) :: (SHELL, inr 0) :: (CONTROL, inl (Some (7, "Ada"))) :: (SHELL, inr 0) :: (SHELL, inl (Some (7, "36"))) :: l)%list.
Proof.
  intros v. exists (asker true nosy answers), demo_start, ["start"], (fst (crossed_run v)), (snd (crossed_run v)).
  split; [reflexivity|]. split; [reflexivity|]. split; [reflexivity|]. split; [exact (y_asker_run_ok _ _ _)|]. split.
  - assert (X : exists q0 q1 l, y_on_stdin (fst (crossed_run v)) = (OAsk q0 :: OAsk q1 :: OArrive :: OInput 7 "Ada" :: l)%list) by (destruct v; eexists; eexists; eexists; vm_compute; reflexivity).
    destruct X as (q0 & q1 & l & ->). intros H. destruct (H [OAsk q0; OAsk q1; OArrive] 7 "Ada" l eq_refl) as (q & n & l0 & i & Hl & Hn & Ha & _).
    destruct i as [|[|i]]; cbn [repeat] in Hl; lists; try discriminate. all: cbn in Ha; lia.
  - destruct v; eexists; vm_compute; reflexivity.
Qed.
Print Assumptions C106_crossed_refuted.
