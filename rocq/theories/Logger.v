(** Loggers, src/xlogger.cpp, src/xlogger_impl.cpp; timestamps, src/xmessage.cpp:227-244; the interpreter that is registered for the
    process, src/xmock_interpreter.cpp. *)
From Verif Require Import Base Json JsonText Utf8 Auth Message.

(** ** Loggers *)
(** [xlogger::level]; any other value counts as [full] (default of the switch, lines 167-184). *)
Inductive level := LMsgType | LContent | LFull.
Inductive sink := SConsole | SFile (name : string).
(** A chain: xlogger_common with its own sink and [p_next_logger]; a missing next logger is xlogger_nolog (line 109). *)
Inductive logger := LNolog | LLogger (l : level) (s : sink) (next : logger).
(** What is written. The text is the dump with indentation 4; only whether it can be made is modelled (as for a compact dump). *)
Inductive entry := EConsole (info : string) (message : json) | EFile (name : string) (log : json).
(** xlogger_console::log_message_impl, lines 196-201; xlogger_file::log_message_impl, lines 215-224. *)
Definition write_entry (s : sink) (info : string) (message : json) : res entry :=
  match s with
  | SConsole => let* _ := dump EStrict message in Ok (EConsole info message)
  | SFile name => let log := jobj [("info", JStr info); ("message", message)] in let* _ := dump EStrict log in Ok (EFile name log)
  end.
(** Lines 161-186: the message at a level. *)
Definition at_level (l : level) (header parent meta content : json) : res json :=
  let* t := value_string "msg_type" "" header in
  Ok (jobj (("msg_type", JStr t) ::
    match l with
    | LMsgType => []
    | LContent => [("content", content)]
    | LFull => [("header", header); ("parent_header", parent); ("metadata", meta); ("content", content)]
    end)).
(** xlogger_common::log_message_impl, lines 155-189, xlogger_nolog, lines 38-44: entries written, and how it ended. *)
Fixpoint log_message (lg : logger) (info : string) (header parent meta content : json) : list entry * res unit :=
  match lg with
  | LNolog => ([], Ok tt)
  | LLogger l s next =>
      match (let* m := at_level l header parent meta content in write_entry s info m) with
      | Ok e => let (es, r) := log_message next info header parent meta content in (e :: es, r)
      | Exn x => ([], Exn x)
      | UB w => ([], UB w)
      end
  end.
Inductive channel := CShell | CControl | CStdin | CHeartbeat.
Definition channel_str (c : channel) : string := match c with CShell => "shell" | CControl => "control" | CStdin => "stdin" | CHeartbeat => "heartbeat" end.
(** log_received_message_impl, log_sent_message_impl, lines 120-146: [identities()[0]] is undefined for an empty list; the id is
    copied from the frame. xlogger_nolog does nothing. *)
Definition log_channel (what : string) (lg : logger) (m : xmessage) (c : channel) : list entry * res unit :=
  match lg with
  | LNolog => ([], Ok tt)
  | _ =>
      match m_ids m with
      | [] => ([], UB "identities()[0]")
      | id :: _ =>
          let info := "XEUS: " +++ what +++ " message on " +++ channel_str c +++ " - " +++ (if is_utf8_valid id then id else "invalid UTF8") in
          let b := m_base m in log_message lg info (m_header b) (m_parent_header b) (m_metadata b) (m_content b)
      end
  end.
Definition log_received := log_channel "received".
Definition log_sent := log_channel "sent".
(** log_iopub_message_impl, lines 148-153. *)
Definition log_iopub (lg : logger) (m : xpub) : list entry * res unit :=
  match lg with
  | LNolog => ([], Ok tt)
  | _ => let b := m_pbase m in log_message lg ("XEUS: sent message on iopub - " +++ m_topic m) (m_header b) (m_parent_header b) (m_metadata b) (m_content b)
  end.
(** xkernel::init, src/xkernel.cpp:133-136. *)
Definition choose_logger (given : option logger) (xeus_log_set : bool) : logger :=
  match given with Some lg => if xeus_log_set then lg else LNolog | None => LNolog end.

(** ** The registered interpreter, src/xmock_interpreter.cpp:14-56 *)
(** Pointers: [None] is the null pointer. *)
Section Registration.
  Context {interp : Type} (mock : interp).
  Definition register_interpreter (i : option interp) (reg : option interp) : option interp * bool :=
    match reg with Some _ => (reg, false) | None => (i, true) end.
  Definition get_interpreter (reg : option interp) : interp := match reg with Some i => i | None => mock end.
  Inductive rop := Register (i : option interp) | Get.
  Inductive rres := RBool (b : bool) | RInterp (i : interp).
  Fixpoint run_registration (reg : option interp) (l : list rop) : list rres :=
    match l with
    | [] => []
    | Register i :: r => let (reg', b) := register_interpreter i reg in RBool b :: run_registration reg' r
    | Get :: r => RInterp (get_interpreter reg) :: run_registration reg r
    end.
End Registration.
(** Output operations of xinterpreter, src/xinterpreter.cpp:72-170, 224-245, on an object whose publisher and stdin sender are set or
    empty; what they send: the type and the content. *)
Inductive output_op :=
| OStream (name text : string) | ODisplay (d m t : json) | OUpdate (d m t : json) | OInput (code : string) (count : Z)
| OResult (count : Z) (d m : json) | OError (ename evalue : string) (tb : list string) | OClear (wait : bool) | OPrompt (prompt : string) (pwd : bool).
Record outputs := { o_publisher : bool; o_stdin : bool }.
Inductive sent := SPublished (type : string) (content : json) | SStdin (type : string) (content : json).
Definition run_output (o : outputs) (op : output_op) : list sent :=
  let publish t c := if o_publisher o then [SPublished t c] else [] in
  match op with
  | OStream name text => publish "stream" (jobj [("name", JStr name); ("text", JStr text)])
  | ODisplay d m t => publish "display_data" (jobj [("data", d); ("metadata", m); ("transient", t)])
  | OUpdate d m t => publish "update_display_data" (jobj [("data", d); ("metadata", m); ("transient", t)])
  | OInput code count => publish "execute_input" (jobj [("code", JStr code); ("execution_count", JInt count)])
  | OResult count d m => publish "execute_result" (jobj [("execution_count", JInt count); ("data", d); ("metadata", m)])
  | OError ename evalue tb => publish "error" (jobj [("ename", JStr ename); ("evalue", JStr evalue); ("traceback", JArr (map JStr tb))])
  | OClear wait => publish "clear_output" (jobj [("wait", JBool wait)])
  | OPrompt prompt pwd => if o_stdin o then [SStdin "input_request" (jobj [("prompt", JStr prompt); ("pwd", JBool pwd)])] else []
  end.
(** The constructor of the mock interpreter, src/xmock_interpreter.cpp:58-65: empty functions. *)
Definition mock_outputs : outputs := {| o_publisher := false; o_stdin := false |}.

(** ** Timestamps, src/xmessage.cpp:227-244 *)
(** The argument: microseconds since 1970, not negative. [gmtime]: the proleptic Gregorian calendar, UTC without leap seconds. *)
Definition leap (y : Z) : bool := ((y mod 4 =? 0) && (negb (y mod 100 =? 0) || (y mod 400 =? 0)))%Z.
Definition year_len (y : Z) : Z := if leap y then 366 else 365.
Definition month_lens (y : Z) : list Z := [31; if leap y then 29 else 28; 31; 30; 31; 30; 31; 31; 30; 31; 30; 31]%Z.
Fixpoint year_of (fuel : nat) (y days : Z) : Z * Z :=
  match fuel with
  | 0 => (y, days)
  | S fuel => if (days <? year_len y)%Z then (y, days) else year_of fuel (y + 1) (days - year_len y)
  end.
Fixpoint month_of (lens : list Z) (m days : Z) : Z * Z :=
  match lens with
  | [] => (m, days)
  | n :: r => if (days <? n)%Z then (m, days) else month_of r (m + 1) (days - n)
  end.
(** Year, month (1-12), day (1-31) of a number of days since 1970-01-01. *)
Definition civil (days : Z) : Z * Z * Z :=
  let (y, d) := year_of (S (Z.to_nat (days / 365))) 1970 days in
  let (m, d) := month_of (month_lens y) 1 d in (y, m, d + 1)%Z.
Definition two (z : Z) : string := if (z <? 10)%Z then "0" +++ dec_of_Z z else dec_of_Z z.
(** put_time "%FT%T", then the fraction. *)
Definition iso8601 (micros : Z) : string :=
  let secs := (micros / 1000000)%Z in
  let '(y, m, d) := civil (secs / 86400) in
  let s := (secs mod 86400)%Z in
  dec_of_Z y +++ "-" +++ two m +++ "-" +++ two d +++ "T" +++ two (s / 3600) +++ ":" +++ two (s / 60 mod 60) +++ ":" +++ two (s mod 60)
  +++ "." +++ dec_of_Z (micros mod 1000000) +++ "Z".
