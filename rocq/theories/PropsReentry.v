(** Callbacks that destroy themselves: C101. *)
From Verif Require Import Base BaseFacts Json JsonText Auth Message History Comm Tree Kernel KernelSpec WireLemmas KernelDemo Reentry ReentrySpec ReentryProofs.

(** Messages handled one after the other, until one has undefined behaviour or lets an exception out. *)
Fixpoint handled {U} (f : channel * frames -> kprog U unit) (l : list (channel * frames)) (s : kstate U) : kstate U * res unit :=
  match l with
  | [] => (s, Ok tt)
  | m :: l => match run (f m) s with (s, Ok _) => handled f l s | r => r end
  end.
(** A kernel from its construction on. *)
Definition life {U} (start : kprog U unit) (f : channel * frames -> kprog U unit) (l : list (channel * frames)) (u : U) : kstate U * res unit :=
  match run start (kinit u []) with (s, Ok _) => handled f l s | r => r end.

(** C101. The kernel in which destroying a running function is undefined behaviour behaves like that of [Kernel] until user code does so. *)
Theorem C101_exact : forall U (E : env U) l u,
  life (kernel_start_r E) (deliver_r E) l u = life (kernel_start E) (deliver E) l u \/
  exists s, life (kernel_start_r E) (deliver_r E) l u = (s, UB destroyed_running).
Proof.
  intros U E l u. assert (false = true -> mild E) as N by discriminate.
  assert (forall s, handled (deliver_r E) l s = handled (deliver E) l s \/ exists s1, handled (deliver_r E) l s = (s1, UB destroyed_running)) as K.
  { induction l as [|[c w] l IH]; intros s; cbn [handled]; auto. unfold deliver_r, deliver, run. cbn [fst snd].
    destruct (cut_exec (@kstep U) false _ _ (cut_dispatch E false N w c) s) as [H|(_ & s1 & H)]; rewrite H; [|eauto].
    destruct (exec _ (dispatch E w c) s) as [s1 [[]| |]]; auto. }
  unfold life, run. destruct (cut_exec (@kstep U) false _ _ (cut_start E false N) (kinit u [])) as [H|(_ & s1 & H)]; rewrite H; [|eauto].
  destruct (exec _ (kernel_start E) (kinit u [])) as [s1 [[]| |]]; auto.
Qed.
Print Assumptions C101_exact.
(** C101. If the user code leaves the running functions alone, the two are the same: no handler destroys a comm or replaces the function
    of a comm that runs, no callback registers or unregisters its own target, and no input handler does any of this to any comm or
    target or registers an input handler. *)
Theorem C101_mild : forall U (E : env U) l u, mild E -> life (kernel_start_r E) (deliver_r E) l u = life (kernel_start E) (deliver E) l u.
Proof.
  intros U E l u M. assert (true = true -> mild E) as N by auto.
  assert (forall s, handled (deliver_r E) l s = handled (deliver E) l s) as K.
  { induction l as [|[c w] l IH]; intros s; cbn [handled]; auto. unfold deliver_r, deliver, run. cbn [fst snd].
    destruct (cut_exec (@kstep U) true _ _ (cut_dispatch E true N w c) s) as [H|(H & _)]; [rewrite H|discriminate].
    destruct (exec _ (dispatch E w c) s) as [s1 [[]| |]]; auto. }
  unfold life, run. destruct (cut_exec (@kstep U) true _ _ (cut_start E true N) (kinit u [])) as [H|(H & _)]; [rewrite H|discriminate].
  destruct (exec _ (kernel_start E) (kinit u [])) as [s1 [[]| |]]; auto.
Qed.
Print Assumptions C101_mild.

(** The demonstration kernel is mild: its handler answers on the comm, its callback keeps the comm and installs handlers. *)
Example C101_mild_ex : mild demo /\
  names (fst (life (kernel_start_r demo) (deliver_r demo) [(SHELL, wire_of (comm_request "comm_open" "c1" [("target_name", JStr "chat")]));
    (SHELL, wire_of (comm_request "comm_msg" "c1" [])); (SHELL, wire_of (comm_request "comm_close" "c1" []))] [])) =
  ["starting"; "busy"; "callback"; "idle"; "busy"; "handler"; "comm_msg"; "idle"; "busy"; "handler"; "idle"].
Proof.
  split; [|vm_compute; reflexivity]. split; [|split; [|intros; exact I]].
  - intros a n m. unfold demo, e_handler, demo_handler. destruct (Nat.eqb n 7); [|split; exact I].
    split; (split; [intros o [= <-] y [<-|[]]; cbn; firstorder discriminate|intros [[|b l]|e]; cbn; auto; split; auto; intros o [= <-] y [<-|[]]; cbn; firstorder discriminate]).
  - intros name n a m _. unfold demo, e_callback, demo_callback. destruct (Nat.eqb n 1); [|exact I].
    split; [intros o [= <-] y [<-|[]]; cbn; firstorder discriminate|]. intros [b|e]; cbn; auto.
    repeat (split; [intros o [= <-] y [<-|[]]; cbn; firstorder discriminate|intros _]). exact I.
Qed.

(** A kernel with other user code: handlers 7 and 8 destroy their comm, callback 1 keeps the comm, callback 2 unregisters its target, input
    handler 1 unregisters itself. *)
Definition hasty_handler (n : nat) (m : xmessage) : ucode U0 unit :=
  Do (Ar := @uans1 U0) (AOp AGet) (fun r => match r with inl (b :: _) => act (ADestroy b) (act (AStream "stdout" "bye") (Ret tt)) | _ => Ret tt end).
Definition hasty_callback (n a : nat) (m : xmessage) : ucode U0 unit :=
  if Nat.eqb n 1 then demo_callback n a m
  else Do (Ar := @uans1 U0) (AOp (AMove a)) (fun r => act (AUnregTarget "drop") (Ret tt)).
Definition hasty_interp (r : request) : ucode U0 json :=
  fin (act (ASetInput (Some 1)) (Do (Ar := @uans1 U0) (AInputRequest "name?" false) (fun _ => Ret tt))) ok_reply_json.
Definition hasty : env U0 := {|
  e_crypto := toy; e_auth := toy_auth; e_eh := EStrict; e_kernel_id := "k1"; e_user_name := "user"; e_session_id := "s1";
  e_guid := ticks; e_now := fun _ => "2024-01-01T00:00:00Z"; e_stdin := stdin_msg; e_logger := fun _ => Ok tt;
  e_regex := fun _ => Ok (fun _ => false); e_indet := IndetVal (fun _ => false); e_long_id := fun s => Ok s;
  e_configure := e_configure demo; e_interp := hasty_interp; e_split := false; e_debugger := None;
  e_callback := hasty_callback; e_handler := hasty_handler;
  e_input := fun _ v => Do (Ar := @uans0 U0) (ASetInput None) (fun _ => Do (Ar := @uans0 U0) (AStream "stdout" v) (fun _ => Ret tt)) |}.
Definition open_chat : channel * frames := (SHELL, wire_of (comm_request "comm_open" "c1" [("target_name", JStr "chat")])).
(** What the two kernels make of a list of messages. *)
Definition both_ends (l : list (channel * frames)) : res unit * res unit :=
  (snd (life (kernel_start hasty) (deliver hasty) l []), snd (life (kernel_start_r hasty) (deliver_r hasty) l [])).
Example C101_ex :
  both_ends [open_chat] = (Ok tt, Ok tt) /\
  both_ends [open_chat; (SHELL, wire_of (comm_request "comm_msg" "c1" []))] = (Ok tt, UB destroyed_running) /\
  both_ends [open_chat; (SHELL, wire_of (comm_request "comm_close" "c1" []))] = (Ok tt, UB destroyed_running) /\
  both_ends [(SHELL, wire_of (comm_request "comm_open" "c1" [("target_name", JStr "drop")]))] = (Ok tt, UB destroyed_running) /\
  both_ends [(SHELL, wire_of (execute "1" []))] = (Ok tt, UB destroyed_running).
Proof. repeat split; vm_compute; reflexivity. Qed.

(** C101. User code that the kernel serves without undefined behaviour as long as functions may be destroyed while they run: a handler that
    destroys its comm when it is closed, and a one-shot input handler. *)
Theorem C101_close_refuted : ~ (forall (E : env U0) l, snd (life (kernel_start E) (deliver E) l []) = Ok tt -> snd (life (kernel_start_r E) (deliver_r E) l []) = Ok tt).
Proof.
  intros R. destruct C101_ex as (_ & _ & X & _). pose proof (f_equal fst X) as X1. pose proof (f_equal snd X) as X2. unfold both_ends in X1, X2. cbn [fst snd] in X1, X2. rewrite (R _ _ X1) in X2. discriminate.
Qed.
Print Assumptions C101_close_refuted.
Theorem C101_input_refuted : ~ (forall (E : env U0) w, snd (run (dispatch E w SHELL) (kinit [] [])) = Ok tt -> snd (run (dispatch_r E w SHELL) (kinit [] [])) = Ok tt).
Proof.
  intros R. assert (snd (run (dispatch hasty (wire_of (execute "1" [])) SHELL) (kinit [] [])) = Ok tt) as X1 by (vm_compute; reflexivity).
  assert (snd (run (dispatch_r hasty (wire_of (execute "1" [])) SHELL) (kinit [] [])) = UB destroyed_running) as X2 by (vm_compute; reflexivity).
  rewrite (R _ _ X1) in X2. discriminate.
Qed.
Print Assumptions C101_input_refuted.
