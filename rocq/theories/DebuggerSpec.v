(** Vocabulary for the properties of the debugger: what the adapter was sent, which threads are stopped. *)
From Verif Require Import Base BaseFacts Json JsonText Auth Message Dap Debugger.

(** The debugger is started: a successful start not followed by a stop. *)
Definition is_started (l : list dact) : Prop := exists a b, l = (a ++ DStart true :: b)%list /\ ~ In DStop b.

(** [m] sets the breakpoints of the file [src]. *)
Definition sets_breakpoints (m : json) (src : string) (bps : list json) : Prop :=
  jfield "command" m = Some (JStr "setBreakpoints") /\
  exists a s v, jfield "arguments" m = Some a /\ jfield "source" a = Some s /\ jfield "path" s = Some (JStr src) /\
    jfield "breakpoints" a = Some v /\ bps = jelements v.
(** The last breakpoints of [src] the adapter was sent since the last stop. *)
Definition in_force (l : list dact) (src : string) (bps : list json) : Prop :=
  exists a m bytes b, l = (a ++ DSend m bytes :: b)%list /\ sets_breakpoints m src bps /\ ~ In DStop b /\
    forall m' bytes' bps', In (DSend m' bytes') b -> ~ sets_breakpoints m' src bps'.

(** [j] is the event [name] of the thread [t]. *)
Definition thread_event (j : json) (name : string) (t : Z) : Prop :=
  jfield "event" j = Some (JStr name) /\
  exists body v, jfield "body" j = Some body /\ jfield "threadId" body = Some v /\ get_int v = Ok t.
(** A stopped event of [t] not followed by a continued event of [t], nor by a stop of the debugger. *)
Definition is_stopped (l : list dact) (t : Z) : Prop :=
  exists a j b, l = (a ++ DEvent j :: b)%list /\ thread_event j "stopped" t /\ ~ In DStop b /\
    forall j', In (DEvent j') b -> ~ thread_event j' "continued" t.

(** Sorted without repetition. *)
Inductive zsorted : list Z -> Prop :=
| zsorted_nil : zsorted []
| zsorted_cons x l : (forall y, In y l -> (x < y)%Z) -> zsorted l -> zsorted (x :: l).

(** What user handlers may forward. *)
Fixpoint forwards (P : json -> Prop) (p : hprog) : Prop :=
  match p with HForward j k => P j /\ forall r, forwards P (k r) | _ => True end.
(** The derived class leaves the breakpoints to the base class. *)
Definition breakpoints_left (E : dbgenv) : Prop :=
  forall name b p, In (name, b, p) (dn_regs E) ->
    name <> "setBreakpoints" /\ forall m, forwards (fun j => jfield "command" j <> Some (JStr "setBreakpoints")) (p m).
(** ... registers only handlers that require a started debugger. *)
Definition only_started (E : dbgenv) : Prop := forall name b p, In (name, b, p) (dn_regs E) -> b = true.
Definition threads_left (E : dbgenv) : Prop := ~ In "stopped" (dn_event_regs E) /\ ~ In "continued" (dn_event_regs E).
(** The messages of the requests are values that can be sent (they were received). *)
Definition sendable (l : list hop) : Prop := forall h m, In (HRequest h m) l -> exists t, dump EStrict m = Ok t.

(** The file system takes C strings: [p] is [name] up to its first NUL. *)
Definition c_string (name p : string) : Prop :=
  (forall a b, p <> a +++ String "000" b) /\ (name = p \/ exists rest, name = p +++ String "000" rest).
(** Reading the file [p] gives [c] (nothing if it is a directory); it cannot be read. *)
Definition reads (fs : files) (p c : string) : Prop := f_at fs p = Dir /\ c = "" \/ exists w, f_at fs p = Plain true w c.
Definition unreadable (fs : files) (p : string) : Prop := f_at fs p = Absent \/ exists w c, f_at fs p = Plain false w c.

(** Frames of a stack trace. *)
Definition has_path (f : json) (p : json) : Prop := exists s, jfield "source" f = Some s /\ jfield "path" s = Some p.
(** [l'] is [l] without the first frame of path <string>, if there is one. *)
Inductive first_removed : list json -> list json -> Prop :=
| removed_none : first_removed [] []
| removed_here f l : has_path f (JStr "<string>") -> first_removed (f :: l) l
| removed_later f p l l' : has_path f p -> p <> JStr "<string>" -> first_removed l l' -> first_removed (f :: l) (f :: l').
(** [reply'] is [reply] with [key] of its body set to [v]; everything else is as in [reply]. *)
Definition with_body (key : string) (v : json) (reply reply' : json) : Prop :=
  exists m b m' b', reply = JObj m /\ mfind "body" m = Some (JObj b) /\ reply' = JObj m' /\ mfind "body" m' = Some (JObj b') /\
    mfind key b' = Some v /\ (forall k, k <> "body" -> mfind k m' = mfind k m) /\ (forall k, k <> key -> mfind k b' = mfind k b).
(** [reply] has [v] under [key] of its body. *)
Definition body_has (key : string) (v : json) (reply : json) : Prop := exists b, jfield "body" reply = Some (JObj b) /\ mfind key b = Some v.

(** The argument [key]; 0 if it is not given. *)
Definition asked (key : string) (m : json) (z : Z) : Prop :=
  exists a, jfield "arguments" m = Some a /\ (jfield key a = None /\ z = 0%Z \/ exists v, jfield key a = Some v /\ get_int v = Ok z).
(** What a variables request with [start] and [count] gives of the list [l]. *)
Inductive windowed (l : list json) : Z -> Z -> json -> Prop :=
| win_all : windowed l 0 0 (JArr l)
| win_tail a b : l = (a ++ b)%list -> a <> [] -> b <> [] -> windowed l (Z.of_nat (List.length a)) 0 (JArr b)
| win_part a b c : l = (a ++ b ++ c)%list -> b <> [] -> windowed l (Z.of_nat (List.length a)) (Z.of_nat (List.length b)) (JArr b)
| win_after s : (0 < s)%Z -> (Z.of_nat (List.length l) <= s)%Z -> windowed l s 0 JNull
| win_negative s c : (c < 0)%Z -> windowed l s c JNull.

(** The derived class has no handler of its own for [name]. *)
Definition unregistered (E : dbgenv) (name : string) : Prop := forall b p, ~ In (name, b, p) (dn_regs E).
Definition is_request (name : string) (m : json) : Prop := jfield "command" m = Some (JStr name).
(** The reply of the request: a response to [m]. *)
Definition answers (m : json) (success : bool) (r : json) : Prop :=
  jfield "type" r = Some (JStr "response") /\ jfield "request_seq" r = jfield "seq" m /\ jfield "command" r = jfield "command" m /\
  jfield "success" r = Some (JBool success).
(** An entry of the list of breakpoints in the reply to debugInfo. *)
Definition reported (x : json) (p : string * list json) : Prop :=
  jfield "source" x = Some (JStr (fst p)) /\ jfield "breakpoints" x = Some (JArr (snd p)).
Definition is_send (a : dact) : Prop := match a with DSend _ _ => True | _ => False end.
Definition is_header (a : dact) : Prop := match a with DHeader _ => True | _ => False end.
Definition to_adapter (a : dact) : Prop := match a with DHeader _ | DSend _ _ => True | _ => False end.

(** After a message was sent nothing is sent before an answer has come; an answer belongs to a message sent before. *)
Definition one_at_a_time (l : list dact) : Prop :=
  (forall a x b y c, l = (a ++ x :: b ++ y :: c)%list -> is_send x -> to_adapter y -> exists t, In (DRecv t) b) /\
  (forall a t c, l = (a ++ DRecv t :: c)%list -> exists a' m bytes b, a = (a' ++ DSend m bytes :: b)%list /\ forall t', ~ In (DRecv t') b).
