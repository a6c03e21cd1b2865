(** Specification of the host part (C50-C56, C66), independent of the functions of the model: what a connection file declares,
    which directories a path names, what a chain of loggers should write, which instant a timestamp denotes. *)
From Verif Require Import Base Json JsonText Utf8 Message Host Logger.

(** ** Connection files *)
Definition str_field (key : string) (doc : json) (v : string) : Prop := jfield key doc = Some (JStr v).
Definition port_field (key : string) (doc : json) (v : string) : Prop := exists n, jfield key doc = Some (JInt n) /\ (0 <= n <= 65535)%Z /\ v = dec_of_Z n.
(** A connection file of the Jupyter protocol: all fields, with their types. *)
Definition declares (doc : json) (c : config) : Prop :=
  str_field "transport" doc (g_transport c) /\ str_field "ip" doc (g_ip c) /\
  port_field "control_port" doc (g_control c) /\ port_field "shell_port" doc (g_shell c) /\ port_field "stdin_port" doc (g_stdin c) /\
  port_field "iopub_port" doc (g_iopub c) /\ port_field "hb_port" doc (g_hb c) /\
  str_field "signature_scheme" doc (g_scheme c) /\ g_scheme c <> "" /\ str_field "key" doc (g_key c).
Definition is_str (v : json) : Prop := exists s, v = JStr s.
(** What the reader of ports takes: integers of any size, truth values, and fractions whose integral part is an [int]. *)
Definition portlike (v : json) : Prop := exists n, get_int v = Ok n.
(** The files that are accepted. *)
Definition usable (doc : json) : Prop :=
  (forall k, In k ["transport"; "ip"] -> exists v, jfield k doc = Some v /\ is_str v) /\
  (forall k, In k ["control_port"; "shell_port"; "stdin_port"; "iopub_port"; "hb_port"] -> exists v, jfield k doc = Some v /\ portlike v) /\
  (jfield "signature_scheme" doc = None \/ jfield "signature_scheme" doc = Some (JStr "") \/
   exists s k, jfield "signature_scheme" doc = Some (JStr s) /\ jfield "key" doc = Some (JStr k)).

(** ** Paths *)
(** A tree: the root is a directory, everything is in a directory. *)
Definition is_tree (t : tree) : Prop := t_at t [] = Some NDir /\ forall p x, t_at t (p ++ [x]) <> None -> t_at t p = Some NDir.
(** [p] names the same place as the path: the non-empty pieces between slashes, in order. *)
Inductive names : string -> list string -> Prop :=
| names_nil : names "" []
| names_last s : s <> "" -> (forall a b, s <> a +++ "/" +++ b) -> names s [s]
| names_slash a b p : (forall x y, a <> x +++ "/" +++ y) -> names b p -> names (a +++ "/" +++ b) (if String.eqb a "" then p else a :: p).

(** ** Loggers *)
Fixpoint chain (lg : logger) : list (level * sink) := match lg with LNolog => [] | LLogger l s next => (l, s) :: chain next end.
Definition full (l : level) : bool := match l with LFull => true | _ => false end.
Definition with_content (l : level) : bool := match l with LMsgType => false | _ => true end.
(** [m] shows, of a message with this type, exactly what the level asks for. *)
Definition shows (l : level) (type : string) (header parent meta content m : json) : Prop :=
  (exists l, m = JObj l /\ msorted l = true) /\
  forall k, jfield k m =
    if String.eqb k "msg_type" then Some (JStr type)
    else if String.eqb k "content" && with_content l then Some content
    else if String.eqb k "header" && full l then Some header
    else if String.eqb k "parent_header" && full l then Some parent
    else if String.eqb k "metadata" && full l then Some meta
    else None.
Definition logged (info type : string) (header parent meta content : json) (ls : level * sink) (e : entry) : Prop :=
  match snd ls, e with
  | SConsole, EConsole i m => i = info /\ shows (fst ls) type header parent meta content m
  | SFile f, EFile g log => f = g /\ exists m, log = JObj [("info", JStr info); ("message", m)] /\ shows (fst ls) type header parent meta content m
  | _, _ => False
  end.
(** The names of the channels in a log (src/xlogger_impl.cpp:53). *)
Inductive channel_name : channel -> string -> Prop :=
| named_shell : channel_name CShell "shell" | named_control : channel_name CControl "control"
| named_stdin : channel_name CStdin "stdin" | named_heartbeat : channel_name CHeartbeat "heartbeat".
(** The messages of the protocol for the output operations; keys in the order of the objects. *)
Inductive announces : output_op -> sent -> Prop :=
| an_stream n t : announces (OStream n t) (SPublished "stream" (JObj [("name", JStr n); ("text", JStr t)]))
| an_display d m t : announces (ODisplay d m t) (SPublished "display_data" (JObj [("data", d); ("metadata", m); ("transient", t)]))
| an_update d m t : announces (OUpdate d m t) (SPublished "update_display_data" (JObj [("data", d); ("metadata", m); ("transient", t)]))
| an_input c n : announces (OInput c n) (SPublished "execute_input" (JObj [("code", JStr c); ("execution_count", JInt n)]))
| an_result n d m : announces (OResult n d m) (SPublished "execute_result" (JObj [("data", d); ("execution_count", JInt n); ("metadata", m)]))
| an_error e v tb : announces (OError e v tb) (SPublished "error" (JObj [("ename", JStr e); ("evalue", JStr v); ("traceback", JArr (map JStr tb))]))
| an_clear w : announces (OClear w) (SPublished "clear_output" (JObj [("wait", JBool w)]))
| an_prompt p pwd : announces (OPrompt p pwd) (SStdin "input_request" (JObj [("prompt", JStr p); ("pwd", JBool pwd)])).
(** The type shown for a header. *)
Definition type_of (header : json) (type : string) : Prop :=
  exists h, header = JObj h /\ (jfield "msg_type" header = Some (JStr type) \/ jfield "msg_type" header = None /\ type = "").

(** ** Registration *)
Fixpoint first_registered {interp : Type} (l : list (rop (interp := interp))) : option interp :=
  match l with [] => None | Register (Some i) :: _ => Some i | _ :: r => first_registered r end.

(** ** Timestamps *)
(** Days from 1970-01-01 to a date, by the number of leap years. *)
Definition leaps_before (y : Z) : Z := ((y - 1) / 4 - (y - 1) / 100 + (y - 1) / 400)%Z.
Definition days_before_year (y : Z) : Z := (365 * (y - 1970) + leaps_before y - leaps_before 1970)%Z.
Definition days_before_month (y m : Z) : Z :=
  (nth (Z.to_nat m) [0; 0; 31; 59; 90; 120; 151; 181; 212; 243; 273; 304; 334] 0 + (if (2 <? m) && (if y mod 4 =? 0 then (if y mod 100 =? 0 then y mod 400 =? 0 else true) else false) then 1 else 0))%Z.
Definition date_days (y m d : Z) : Z := (days_before_year y + days_before_month y m + (d - 1))%Z.
(** A reader of timestamps: digits up to a mark. *)
Definition field (mark : ascii) (s : string) : option (string * string) :=
  match span_digits s with
  | (d, String c r) => if Ascii.eqb c mark && negb (String.eqb d "") then Some (d, r) else None
  | _ => None
  end.
Definition number (d : string) : Z := digits_val 0 d.
(** Year, month, day, hour, minute, second, digits of the fraction. *)
Definition iso_fields (s : string) : option (Z * Z * Z * Z * Z * Z * string) :=
  match field "-" s with Some (y, s) =>
  match field "-" s with Some (mo, s) =>
  match field "T" s with Some (d, s) =>
  match field ":" s with Some (h, s) =>
  match field ":" s with Some (mi, s) =>
  match field "." s with Some (se, s) =>
  match field "Z" s with
  | Some (f, "") => if (slen mo =? 2) && (slen d =? 2) && (slen h =? 2) && (slen mi =? 2) && (slen se =? 2)
                    then Some (number y, number mo, number d, number h, number mi, number se, f) else None
  | _ => None end | _ => None end | _ => None end | _ => None end | _ => None end | _ => None end | _ => None end.
Definition in_calendar (y m d h mi s : Z) : bool :=
  ((1 <=? m) && (m <=? 12) && (1 <=? d) && (d <=? nth (Z.to_nat m) [0; 31; if y mod 4 =? 0 then if y mod 100 =? 0 then if y mod 400 =? 0 then 29 else 28 else 29 else 28; 31; 30; 31; 30; 31; 31; 30; 31; 30; 31] 0)
   && (h <=? 23) && (mi <=? 59) && (s <=? 59))%Z.
(** The microseconds since 1970 a timestamp denotes (ISO 8601: a decimal fraction of a second). *)
Definition denotes (s : string) : option Z :=
  match iso_fields s with
  | Some (y, mo, d, h, mi, se, f) =>
      if in_calendar y mo d h mi se
      then Some ((((date_days y mo d * 24 + h) * 60 + mi) * 60 + se) * 1000000 + number f * 1000000 / 10 ^ Z.of_nat (slen f))%Z
      else None
  | None => None
  end.
