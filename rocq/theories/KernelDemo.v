(** Data of the examples of the kernel and comm properties. *)
From Verif Require Import Base BaseFacts Json JsonText Utf8 Utf8Proofs JsonTextProofs JsonParseProofs Auth Message MessageProofs WireSpec WireLemmas History Comm CommSpec CommProofs Tree Kernel KernelSpec KernelProofs KernelRun KernelHandlers KernelReplies KernelSession KernelMisc KernelComm.

Fixpoint ticks (n : nat) : string := match n with 0 => "" | S n => String "i" (ticks n) end.
Definition U0 := list nat.
Definition act (o : uop0 U0) (k : ucode U0 unit) : ucode U0 unit := Do (Ar := @uans1 U0) (AOp o) (fun _ => k).
Definition fin {A} (k : ucode U0 unit) (a : A) : ucode U0 A := tbind k (fun _ => Ret a).
Definition ok_reply_json : json := jobj [("status", JStr "ok")].
(** An interpreter: prints the code, throws on "boom", fails on "bad". *)
Definition demo_interp (r : request) : ucode U0 json :=
  match r with
  | RExecute n code _ _ _ _ =>
      if String.eqb code "boom" then Throw (Std "boom")
      else if String.eqb code "bad" then fin (act (AExecError "E" "v" []) (Ret tt)) (jobj [("status", JStr "error")])
      else if String.eqb code "ask" then
        Do (Ar := @uans1 U0) (ABlockingInput "name?" false) (fun r => fin (act (AStream "stdout" (match r with inl v => v | inr _ => "" end)) (Ret tt)) ok_reply_json)
      else fin (act (AStream "stdout" code) (act (AExecResult n (jobj [("text/plain", JStr code)]) empty) (Ret tt))) ok_reply_json
  | RKernelInfo => Ret (jobj [("implementation", JStr "demo"); ("protocol_version", JStr "4.0"); ("status", JStr "ok")])
  | _ => Ret ok_reply_json
  end.
(** Callback 1 keeps the comm by moving it and installs handler 7; callback 2 drops it. *)
Definition demo_callback (n a : nat) (m : xmessage) : ucode U0 unit :=
  if Nat.eqb n 1 then
    Do (Ar := @uans1 U0) (AOp (AMove a)) (fun r => match r with inl b => act (AOnMessage b (Some 7)) (act (AOnClose b (Some 8)) (act (APut [b]) (Ret tt))) | inr e => Throw e end)
  else Ret tt.
(** Handler 7 answers with a comm message; handler 8 does nothing. *)
Definition demo_handler (n : nat) (m : xmessage) : ucode U0 unit :=
  if Nat.eqb n 7 then
    Do (Ar := @uans1 U0) (AOp AGet) (fun r => match r with inl (b :: _) => act (ASendComm b empty (JStr "pong") ["buf"]) (Ret tt) | _ => Ret tt end)
  else Ret tt.
Definition request_msg (ids : list string) (ty : string) (content : json) : xmessage :=
  {| m_ids := ids; m_base := {| m_header := jobj [("msg_id", JStr "r1"); ("msg_type", JStr ty)]; m_parent_header := empty; m_metadata := empty;
                                m_content := content; m_buffers := [] |} |}.
Definition wire_of (m : xmessage) : frames := match serialize toy toy_auth EStrict m with Ok w => w | _ => [] end.
Definition stdin_msg (n : nat) : frames := wire_of (request_msg ["peer"] "input_reply" (jobj [("value", JStr "Ada")])).
Definition demo : env U0 := {|
  e_crypto := toy; e_auth := toy_auth; e_eh := EStrict; e_kernel_id := "k1"; e_user_name := "user"; e_session_id := "s1";
  e_guid := ticks; e_now := fun _ => "2024-01-01T00:00:00Z"; e_stdin := stdin_msg; e_logger := fun _ => Ok tt;
  e_regex := fun _ => Ok (fun _ => false); e_indet := IndetVal (fun _ => false); e_long_id := fun s => Ok s;
  e_configure := act (ARegTarget "chat" (Some 1)) (act (ARegTarget "drop" (Some 2)) (Ret tt));
  e_interp := demo_interp; e_split := false; e_debugger := Some (fun h t => Ret (jobj [("success", JBool true)]));
  e_callback := demo_callback; e_handler := demo_handler; e_input := fun _ _ => Ret tt |}.
(** The state after the start of the kernel. *)
Definition demo_start : kstate U0 := fst (run (kernel_start demo) (kinit [] [])).

(** Requests. *)
Definition execute (code : string) (more : list (string * json)) : xmessage :=
  request_msg ["peer"] "execute_request" (JObj (fold_right (fun kv m => mset (fst kv) (snd kv) m) [("code", JStr code)] more)).
Definition simple (ty : string) : xmessage := request_msg ["peer"; "x"] ty empty.
Definition comm_request (ty id : string) (more : list (string * json)) : xmessage :=
  request_msg ["peer"] ty (JObj (fold_right (fun kv m => mset (fst kv) (snd kv) m) [("comm_id", JStr id)] more)).

(** The message types and contents published and sent, in order. *)
Definition shown (e : event) : option (string * json) :=
  match e with
  | EPublish _ m _ => Some (match pub_type m with Some t => t | None => "" end, m_content (m_pbase m))
  | ESend _ m _ => Some (match msg_type m with Some t => t | None => "" end, m_content (m_base m))
  | EStdin m _ => Some (match msg_type m with Some t => t | None => "" end, m_content (m_base m))
  | EStop => Some ("stop", JNull)
  | EInterp _ => Some ("interpreter", JNull)
  | EDebug _ _ => Some ("debugger", JNull)
  | ECallback n a _ => Some ("callback", JArr [JInt (Z.of_nat n); JInt (Z.of_nat a)])
  | EHandler n _ => Some ("handler", JInt (Z.of_nat n))
  | EInput n v => Some ("input", JStr v)
  end.
Definition names (s : kstate U0) : list string := List.map (fun e => match shown e with Some (t, j) =>
   if String.eqb t "status" then match jfield "execution_state" j with Some (JStr x) => x | _ => "" end else t | None => "" end) (k_trace s).
Fixpoint send_all (msgs : list (channel * xmessage)) (s : kstate U0) : kstate U0 :=
  match msgs with [] => s | (c, m) :: r => send_all r (fst (run (dispatch demo (wire_of m) c) s)) end.

(** ** The environment meets the hypotheses of the theorems *)
Lemma demo_quiet : quiet demo.
Proof. intros l. reflexivity. Qed.
Lemma ticks_utf8 n : utf8_text (ticks n).
Proof.
  apply is_utf8_valid_spec. rewrite is_utf8_valid_urun, urun_asc; auto. unfold asc. induction n; cbn; auto.
Qed.
Lemma ticks_inj a b : ticks a = ticks b -> a = b.
Proof. revert b; induction a; intros [|b]; cbn; intros H; try discriminate; auto. injection H as H. f_equal. auto. Qed.
Lemma demo_utf8 : env_utf8 demo.
Proof.
  split; [apply utf8_lit; reflexivity|]. split; [apply utf8_lit; reflexivity|]. split; [apply ticks_utf8|]. intros n. apply utf8_lit; reflexivity.
Qed.
Lemma demo_publishes (raw : string -> Prop) : (forall ty, In ty ["error"; "stream"; "execute_result"; "comm_msg"] -> raw ty) -> user_publishes demo raw.
Proof.
  intros H. constructor; cbn [demo e_configure e_interp e_debugger e_callback e_handler e_input]; intros; try exact I.
  - cbn. auto.
  - destruct r; cbn [demo_interp]; try exact I.
    destruct (String.eqb code "boom"); [exact I|]. destruct (String.eqb code "bad"); [cbn; unfold op_allowed0; cbn; repeat split; auto; apply H; cbn; auto|].
    destruct (String.eqb code "ask"); cbn; unfold op_allowed0; cbn; repeat split; auto; apply H; cbn; auto.
  - unfold demo_callback. destruct (Nat.eqb n 1); [|exact I]. cbn. split; [exact I|]. intros [b|e]; cbn; auto 10.
  - unfold demo_handler. destruct (Nat.eqb n 7); [|exact I]. cbn. split; [exact I|]. intros [[|b l]|e]; cbn; auto. repeat split; auto. apply H; cbn; auto 10.
Qed.
Definition user_types : string -> Prop := fun ty => In ty ["error"; "stream"; "execute_result"; "comm_msg"].
Lemma demo_user : user_publishes demo user_types.
Proof. apply demo_publishes. auto. Qed.
Lemma demo_comms (Q : cop -> Prop) : (forall n cb, Q (CRegTarget n cb)) -> (forall a, Q (CMove a)) -> (forall a h, Q (COnMessage a h) /\ Q (COnClose a h)) -> user_comms demo Q.
Proof.
  intros H1 H2 H3. constructor; cbn [demo e_configure e_interp e_debugger e_callback e_handler e_input]; intros; try exact I.
  - cbn. auto.
  - destruct r; cbn [demo_interp]; try exact I.
    destruct (String.eqb code "boom"); [exact I|]. destruct (String.eqb code "bad"); [cbn; auto|]. destruct (String.eqb code "ask"); cbn; auto.
  - unfold demo_callback. destruct (Nat.eqb n 1); [|exact I]. cbn. split; [auto|]. intros [b|e]; cbn; auto. repeat split; auto; apply H3.
  - unfold demo_handler. destruct (Nat.eqb n 7); [|exact I]. cbn. split; [exact I|]. intros [[|b l]|e]; cbn; auto.
Qed.
