(** The debugger base class, src/xdebugger_base.cpp and include/xeus/xdebugger_base.hpp. *)
From Verif Require Import Base Json JsonText Auth Message Dap.

(** ** Files
    A path is a directory, a plain file, or absent; [f_create]: where a file can be created. Paths are passed
    as C strings: they end at the first NUL. Write errors after opening are not modelled. *)
Inductive entry : Type := Absent | Dir | Plain (readable writable : bool) (bytes : string).
Record files := { f_at : string -> entry; f_create : string -> bool }.
Fixpoint cpath (p : string) : string :=
  match p with "" => "" | String c r => if (code c =? 0)%N then "" else String c (cpath r) end.
(** Opening with std::ios::in; opening a directory for reading succeeds, reading from it gives nothing. *)
Definition open_in (fs : files) (p : string) : option string :=
  match f_at fs (cpath p) with Absent => None | Dir => Some "" | Plain r _ b => if r then Some b else None end.
(** Opening with std::ios::out (the file is truncated) and writing. *)
Definition write_out (fs : files) (p data : string) : files :=
  let put r w := {| f_at := fun q => if String.eqb q (cpath p) then Plain r w data else f_at fs q; f_create := f_create fs |} in
  match f_at fs (cpath p) with
  | Absent => if f_create fs (cpath p) then put true true else fs
  | Dir => fs
  | Plain r w _ => if w then put r w else fs
  end.

(** ** State *)
(** What the debugger does, in order. *)
Inductive dact : Type :=
| DHeader (text : string)              (* sent on m_header_socket *)
| DSend (message : json) (bytes : string) (* forward_message: sent on m_request_socket *)
| DRecv (text : string)                (* received on m_request_socket *)
| DStart (ok : bool)                   (* start() has returned *)
| DStop                                (* stop() has returned *)
| DEvent (j : json).                   (* the event callback was called *)
Record dbg := {
  d_started : bool; d_bps : list (string * list json); d_threads : list Z; d_fs : files; d_log : list dact }.
Definition d_set_started x d := {| d_started := x; d_bps := d_bps d; d_threads := d_threads d; d_fs := d_fs d; d_log := d_log d |}.
Definition d_set_bps x d := {| d_started := d_started d; d_bps := x; d_threads := d_threads d; d_fs := d_fs d; d_log := d_log d |}.
Definition d_set_threads x d := {| d_started := d_started d; d_bps := d_bps d; d_threads := x; d_fs := d_fs d; d_log := d_log d |}.
Definition d_set_fs x d := {| d_started := d_started d; d_bps := d_bps d; d_threads := d_threads d; d_fs := x; d_log := d_log d |}.
Definition dlog a d := {| d_started := d_started d; d_bps := d_bps d; d_threads := d_threads d; d_fs := d_fs d; d_log := (d_log d ++ [a])%list |}.
(** The constructor, lines 35-52. *)
Definition d_init (fs : files) : dbg := {| d_started := false; d_bps := []; d_threads := []; d_fs := fs; d_log := [] |}.

Definition G (A : Type) := dbg -> dbg * io A.
Definition gret {A} (a : A) : G A := fun d => (d, Done a).
Definition gbind {A B} (p : G A) (f : A -> G B) : G B := fun d =>
  match p d with
  | (d', Done a) => f a d'
  | (d', Fail e) => (d', Fail e)
  | (d', Undef w) => (d', Undef w)
  | (d', Waits) => (d', Waits)
  end.
Definition glift {A} (r : res A) : G A := fun d => (d, io_of r).
Definition gmod (f : dbg -> dbg) : G unit := fun d => (f d, Done tt).
Notation "'go*' x ':=' p 'in' f" := (gbind p (fun x => f)) (at level 200, x pattern, p at level 100, f at level 200, right associativity).

(** A request handler of a derived class: it may forward messages. Not modelled: a handler that calls the
    protected built-in handlers or registers handlers. *)
Inductive hprog : Type := HRet (j : json) | HThrow (e : exn) | HForward (j : json) (k : json -> hprog).
(** xdebugger_info, lines 22-33. *)
Record dinfo := { i_seed : Z; i_prefix : string; i_suffix : string; i_rich : bool; i_paths : list string }.
(** The environment: the virtual methods, and the answers of the client on the two sockets. [list json]: the
    events which the client's thread passes to the callback while the debugger waits. *)
Record dbgenv := {
  dn_regs : list (string * bool * (json -> hprog));    (* register_request_handler, in order *)
  dn_event_regs : list string;                         (* events with a handler of the derived class *)
  dn_start : list dact -> list json * res bool;
  dn_stop : list dact -> list json * res unit;
  dn_info : list dact -> dinfo;
  dn_tmp : string -> res string;                       (* get_cell_temporary_file *)
  dn_ack : list dact -> list json * bool;              (* false: no answer ever *)
  dn_reply : list dact -> list json * option string }. (* None: no answer ever *)

(** ** JSON *)
(** [j.size()]. *)
Definition jsize (j : json) : nat := match j with JNull => 0 | JArr l => List.length l | JObj m => List.length m | _ => 1 end.
(** [j.at(i)]. *)
Definition jat_index (i : Z) (j : json) : res json :=
  match j with
  | JArr l => match (if (i <? 0)%Z then None else nth_error l (Z.to_nat i)) with Some x => Ok x | None => Exn (Std "out_of_range.401") end
  | _ => Exn type_error_304
  end.
(** [j.erase(key)]. *)
Definition jerase (key : string) (j : json) : res json :=
  match j with JObj m => Ok (JObj (mdel key m)) | _ => Exn (Std "type_error.307") end.
(** The elements from [begin()] to [end()]: a primitive value is its own single element. *)
Definition jelements (j : json) : list json :=
  match j with JNull => [] | JArr l => l | JObj m => map snd m | j => [j] end.
(** [j.find(key)] on a const value. *)
Definition jlookup (key : string) (j : json) : option json := jfield key j.

Section Debugger.
  Context (E : dbgenv).

  (** ** Events *)
  Fixpoint zinsert (z : Z) (l : list Z) : list Z :=
    match l with [] => [z] | x :: r => if (z <? x)%Z then z :: l else if (z =? x)%Z then l else x :: zinsert z r end.
  Definition zremove (z : Z) (l : list Z) : list Z := filter (fun x => negb (x =? z)%Z) l.
  (** [continued_event], [stopped_event], lines 282-294. *)
  Definition event_thread (message : json) : res Z :=
    let* body := jget "body" message in let* id := jget "threadId" body in get_int id.
  (** [handle_event], lines 305-313. *)
  Definition handle_debug_event (message : json) (d : dbg) : res dbg :=
    let* event := jget "event" message in
    let* event := get_string event in
    if existsb (String.eqb event) (dn_event_regs E) then Ok d
    else if String.eqb event "continued" then
      let* id := event_thread message in Ok (d_set_threads (zremove id (d_threads d)) d)
    else if String.eqb event "stopped" then
      let* id := event_thread message in Ok (d_set_threads (zinsert id (d_threads d)) d)
    else Ok d.
  (** Events passed in by the client; an exception ends the client's thread and leaves the debugger as it is. *)
  Fixpoint deliver (l : list json) : G unit := fun d =>
    match l with
    | [] => (d, Done tt)
    | j :: r =>
        let d := dlog (DEvent j) d in
        match handle_debug_event j d with
        | Ok d' => deliver r d'
        | Exn _ => deliver r d
        | UB w => (d, Undef w)
        end
    end.

  (** ** Requests *)
  (** [forward_message], lines 255-270. *)
  Definition forward_message (message : json) : G json :=
    go* content := glift (dump EStrict message) in
    go* _ := gmod (dlog (DSend message (dap_frame content))) in
    fun d =>
    let (events, answer) := dn_reply E (d_log d) in
    (go* _ := deliver events in
     match answer with
     | None => fun d => (d, Waits)
     | Some text => go* _ := gmod (dlog (DRecv text)) in glift (parse text)
     end) d.

  (** The common part of the replies. *)
  Definition response (message : json) (success : bool) (rest : list (string * json)) : res json :=
    let* seq := jget "seq" message in
    let* command := jget "command" message in
    Ok (jobj ([("type", JStr "response"); ("request_seq", seq); ("success", JBool success); ("command", command)] ++ rest)).

  (** [debug_info_request], lines 76-109. *)
  Definition debug_info_request (message : json) : G json := fun d =>
    let breakpoint_list := if d_started d then map (fun p => jobj [("source", JStr (fst p)); ("breakpoints", JArr (snd p))]) (d_bps d) else [] in
    let info := dn_info E (d_log d) in
    glift (response message true [("body", jobj
      [("isStarted", JBool (d_started d)); ("hashMethod", JStr "Murmur2"); ("hashSeed", JInt (i_seed info));
       ("tmpFilePrefix", JStr (i_prefix info)); ("tmpFileSuffix", JStr (i_suffix info)); ("breakpoints", JArr breakpoint_list);
       ("stoppedThreads", JArr (map JInt (d_threads d))); ("richRendering", JBool (i_rich info)); ("exceptionPaths", JArr (map JStr (i_paths info)))])]) d.

  (** The accesses of lines 116, 152, 166. *)
  Definition get_code (message : json) : res string :=
    let* a := jget "arguments" message in let* c := jget "code" a in get_string c.
  Definition get_source_path (message : json) : res string :=
    let* a := jget "arguments" message in let* s := jget "source" a in let* p := jget "path" s in get_string p.
  (** try ... catch(...) {} around such an access: an empty string. *)
  Definition or_empty (r : res string) : res string := match r with Exn _ => Ok "" | r => r end.

  (** [dump_cell_request], lines 111-148. *)
  Definition dump_cell_request (message : json) : G json :=
    go* code := glift (or_empty (get_code message)) in
    go* next_file_name := glift (dn_tmp E code) in
    go* _ := gmod (fun d => match open_in (d_fs d) next_file_name with
                            | Some _ => d
                            | None => d_set_fs (write_out (d_fs d) next_file_name code) d
                            end) in
    glift (response message true [("body", jobj [("sourcePath", JStr next_file_name)])]).

  (** [set_breakpoints_request], lines 150-159. *)
  Definition set_breakpoints_request (message : json) : G json :=
    go* source := glift (get_source_path message) in
    go* _ := gmod (fun d => d_set_bps (mdel source (d_bps d)) d) in
    go* bp_json := glift (let* a := jget "arguments" message in jget "breakpoints" a) in
    go* _ := gmod (fun d => d_set_bps (mset source (jelements bp_json) (d_bps d)) d) in
    forward_message message.

  (** [source_request], lines 161-203. *)
  Definition source_request (message : json) : G json :=
    go* path := glift (or_empty (get_source_path message)) in
    fun d =>
    match open_in (d_fs d) path with
    | None => glift (response message false [("message", JStr "source unavailable"); ("body", JArr [JNull])]) d
    | Some content => glift (response message true [("body", jobj [("content", JStr content)])]) d
    end.

  (** [reply["body"][key]] on a non-const reply: the value, and the reply with the value replaced. *)
  Definition in_body (key : string) (reply : json) : res (json * (json -> res json)) :=
    let* (body, reply) := jget_mut "body" reply in
    let* (v, body) := jget_mut key body in
    Ok (v, fun v' => let* body := jset key v' body in jset "body" body reply).

  (** The loop of lines 209-216 over the frames: non-const accesses add missing members. *)
  Fixpoint strip_frames (frames : list json) : res (list json) :=
    match frames with
    | [] => Ok []
    | f :: r =>
        let* (source, f) := jget_mut "source" f in
        let* (path, source) := jget_mut "path" source in
        let* f := jset "source" source f in
        if json_eqb path (JStr "<string>") then Ok r else let* r := strip_frames r in Ok (f :: r)
    end.
  (** [stack_trace_request], lines 205-227 (not WIN32). [operator[](size_t)] fails on anything but an array;
      the loop is not entered for null and for an empty object. *)
  Definition stack_frames (reply : json) : res json :=
    let* (frames, put) := in_body "stackFrames" reply in
    match frames with
    | JArr l => let* l := strip_frames l in put (JArr l)
    | JNull | JObj [] => put frames
    | _ => Exn type_error_305
    end.
  Definition stack_trace_request (message : json) : G json :=
    go* reply := forward_message message in glift (stack_frames reply).

  (** [variables_request], lines 229-253. The loop of lines 245-248. *)
  Fixpoint window (n : nat) (i : Z) (old : json) : res (list json) :=
    match n with
    | 0 => Ok []
    | S n => let* x := jat_index i old in let* r := window n (i + 1)%Z old in Ok (x :: r)
    end.
  Definition page (message reply : json) : res json :=
    let* arguments := jget "arguments" message in
    let start := jlookup "start" arguments in
    let count := jlookup "count" arguments in
    let* start := match start with Some v => get_int v | None => Ok 0%Z end in
    let* count := match count with Some v => get_int v | None => Ok 0%Z end in
    if (start =? 0)%Z && (count =? 0)%Z then Ok reply
    else
      let* sum := (if (count =? 0)%Z then Ok 0%Z else if in_int (start + count) then Ok (start + count)%Z else UB "int overflow") in
      let* (old, put) := in_body "variables" reply in
      let end_ := if (count =? 0)%Z then Z.of_nat (jsize old) else sum in
      let* reply := put old in
      let* (body, reply) := jget_mut "body" reply in
      let* body := jerase "variables" body in
      let* l := window (Z.to_nat (end_ - start)) start old in
      let* body := jset "variables" (if (start <? end_)%Z then JArr l else JNull) body in
      jset "body" body reply.
  Definition variables_request (message : json) : G json :=
    go* reply := forward_message message in glift (page message reply).

  (** ** Dispatch *)
  Fixpoint run_user (p : hprog) : G json :=
    match p with
    | HRet j => gret j
    | HThrow e => fun d => (d, Fail e)
    | HForward j k => go* r := forward_message j in run_user (k r)
    end.
  (** The handler maps after the constructor (lines 43-48) and the registrations of the derived class. *)
  Definition handlers (require_started : bool) : list (string * (json -> G json)) :=
    fold_left (fun m r => let '(command, b, p) := r in
                 if Bool.eqb b require_started then mset command (fun j => run_user (p j)) m else m) (dn_regs E)
      (if require_started
       then mset "variables" variables_request (mset "stackTrace" stack_trace_request (mset "source" source_request
              (mset "setBreakpoints" set_breakpoints_request (mset "dumpCell" dump_cell_request []))))
       else mset "debugInfo" debug_info_request []).

  (** [process_request_impl], lines 315-380. *)
  Definition do_start (message : json) : G json := fun d =>
    if d_started d then (d, Done (JObj []))
    else
      let (events, r) := dn_start E (d_log d) in
      (go* _ := deliver events in
       go* ok := glift r in
       go* _ := gmod (fun d => dlog (DStart ok) (d_set_started ok d)) in
       if ok then gret (JObj [])
       else glift (let* seq := jget "seq" message in
                   Ok (jobj [("command", JStr "initialize"); ("request_seq", seq); ("seq", JInt 3); ("success", JBool false); ("type", JStr "response")]))) d.
  (** Lines 354-368. *)
  Definition send_header (header : json) : G unit :=
    go* text := glift (dump EStrict header) in
    go* _ := gmod (dlog (DHeader text)) in
    fun d =>
    let (events, ok) := dn_ack E (d_log d) in
    (go* _ := deliver events in if ok then gret tt else fun d => (d, Waits)) d.
  (** Lines 371-378. *)
  Definition do_stop : G unit := fun d =>
    let (events, r) := dn_stop E (d_log d) in
    (go* _ := deliver events in
     go* _ := glift r in
     gmod (fun d => dlog DStop (d_set_started false (d_set_threads [] (d_set_bps [] d))))) d.
  Definition process_request (header message : json) : G json :=
    go* command := glift (jget "command" message) in
    go* reply := (if json_eqb command (JStr "initialize") then do_start message else gret (JObj [])) in
    go* name := glift (get_string command) in
    go* reply := (match mfind name (handlers false) with
                  | Some h => h message
                  | None => fun d =>
                      if d_started d then
                        (go* _ := send_header header in
                         match mfind name (handlers true) with
                         | Some h => h message
                         | None => forward_message message
                         end) d
                      else (d, Done reply)
                  end) in
    go* _ := (if json_eqb command (JStr "disconnect") then do_stop else gret tt) in
    gret reply.
End Debugger.

(** ** Histories: requests, and events between them; exceptions are caught by the caller;
    a request that waits for ever is the last one. *)
Inductive hop : Type := HRequest (header message : json) | HEvents (l : list json) | HFiles (fs : files).
Inductive history (E : dbgenv) : dbg -> list hop -> dbg -> Prop :=
| hist_nil d : history E d [] d
| hist_done d h m d' r l d'' : process_request E h m d = (d', Done r) -> history E d' l d'' -> history E d (HRequest h m :: l) d''
| hist_fail d h m d' e l d'' : process_request E h m d = (d', Fail e) -> history E d' l d'' -> history E d (HRequest h m :: l) d''
| hist_waits d h m d' : process_request E h m d = (d', Waits) -> history E d [HRequest h m] d'
| hist_events d evs d' l d'' : deliver E evs d = (d', Done tt) -> history E d' l d'' -> history E d (HEvents evs :: l) d''
| hist_files d fs l d' : history E (d_set_fs fs d) l d' -> history E d (HFiles fs :: l) d'.
