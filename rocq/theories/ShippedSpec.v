(** What the kernels that come with xeus say: vocabulary of C107. *)
From Verif Require Import Base BaseFacts Json JsonText Utf8 Auth Message WireSpec History HistoryProofs Comm Tree Kernel KernelSpec KernelDispatch SequentialSpec Shipped.

(** What an event says, without identifiers, dates, metadata and frames. *)
Inductive gist :=
| Said (c : channel) (type : string) (parent content : json)
| Replied (c : channel) (ids : list string) (type : string) (parent content : json)
| Asked (ids : list string) (type : string) (parent content : json).
Definition type_in (h : json) : string := match jfield "msg_type" h with Some (JStr t) => t | _ => "" end.
Definition gist_of (e : event) : list gist :=
  match e with
  | EPublish c m _ => [Said c (type_in (m_header (m_pbase m))) (m_parent_header (m_pbase m)) (m_content (m_pbase m))]
  | ESend c m _ => [Replied c (m_ids m) (type_in (m_header (m_base m))) (m_parent_header (m_base m)) (m_content (m_base m))]
  | EStdin m _ => [Asked (m_ids m) (type_in (m_header (m_base m))) (m_parent_header (m_base m)) (m_content (m_base m))]
  | _ => []
  end.
Definition gists (evs : list event) : list gist := flat_map gist_of evs.

(** How an interpreter behaves: what a cell publishes (type and content) and the reply, as functions of the execution count and
    the code; the replies to the other requests. *)
Record manner := {
  w_cell : Z -> string -> list (string * json);
  w_execute : Z -> string -> json;
  w_complete : string -> Z -> json;
  w_inspect : string -> json;
  w_is_complete : string -> json;
  w_info : json
}.
Definition starts_with_H (code : string) : bool := sprefix "H" code.
Definition example_manner : manner := {|
  w_cell n _ := [("execute_result", JObj [("data", JObj [("text/plain", JStr "Hello World !!")]); ("execution_count", JInt n); ("metadata", JObj [])]);
                 ("error", JObj [("ename", JStr "TypeError"); ("evalue", JStr "123"); ("traceback", JArr [JStr "!@#$"; JStr "*(*"])])];
  w_execute n _ := JObj [("execution_count", JInt n); ("status", JStr "ok")];
  w_complete code pos :=
    if starts_with_H code
    then JObj [("cursor_end", JInt pos); ("cursor_start", JInt 5); ("matches", JArr [JStr "Hello"; JStr "Hey"; JStr "Howdy"]); ("status", JStr "ok")]
    else JObj [("cursor_end", JInt pos); ("cursor_start", JInt pos); ("matches", JArr []); ("status", JStr "ok")];
  w_inspect code :=
    if String.eqb code "print"
    then JObj [("found", JBool true); ("status", JStr "ok"); ("text/plain", JStr "Print objects to the text stream file, [...]")]
    else JObj [("found", JBool false); ("status", JStr "ok")];
  w_is_complete _ := JObj [("status", JStr "complete")];
  w_info := JObj [("implementation", JStr "my_kernel"); ("implementation_version", JStr "0.1.0");
                  ("language_info", JObj [("file_extension", JStr ".py"); ("mimetype", JStr "text/x-python"); ("name", JStr "python"); ("version", JStr "3.7")]);
                  ("protocol_version", JStr "5.3")] |}.
(** The page shown for "?". *)
Definition page : json := JObj [
  ("data", JObj [("text/html", JStr ("<iframe class=""xpyt-iframe-pager"" src=""" +++ String (chr 10) "                https://xeus.readthedocs.io""></iframe>"));
                 ("text/plain", JStr "https://xeus.readthedocs.io")]);
  ("source", JStr "page"); ("start", JInt 0)].
Definition test_manner : manner := {|
  w_cell n code :=
    (if String.eqb code "hello, world" then [("stream", JObj [("name", JStr "stdout"); ("text", JStr "hello, world")])]
     else if String.eqb code "error" then [("stream", JObj [("name", JStr "stderr"); ("text", JStr "error")])] else []) ++
    (if String.eqb code "?" then []
     else [("execute_result", JObj [("data", JObj [("text/plain", JStr code)]); ("execution_count", JInt n); ("metadata", JNull)])]);
  w_execute n code := JObj [("execution_count", JInt n); ("payload", JArr (if String.eqb code "?" then [page] else [])); ("status", JStr "ok"); ("user_expressions", JObj [])];
  w_complete _ _ := JObj [("cursor_end", JInt 6); ("cursor_start", JInt 2); ("matches", JArr [JStr "a.test1"; JStr "a.test2"]); ("status", JStr "ok")];
  w_inspect _ := JObj [("data", JObj [("text/plain", JStr "")]); ("found", JBool true); ("metadata", JObj [("text/plain", JStr "")]); ("status", JStr "ok")];
  w_is_complete code := if String.eqb code "incomplete" then JObj [("indent", JStr "   "); ("status", JStr "incomplete")] else JObj [("status", JStr code)];
  w_info := JObj [("banner", JStr "test_kernel"); ("implementation", JStr "cpp_test"); ("implementation_version", JStr "1.0.0");
                  ("language_info", JObj [("file_extension", JStr ".cpp"); ("mimetype", JStr "text/x-c++src"); ("name", JStr "cpp"); ("version", JStr "14.0.0")]);
                  ("protocol_version", JStr "5.3")] |}.

(** What a client can observe of the kernel's memory: the execution count, the history and the headers of the last messages of the
    two channels. *)
Record memory := { y_count : Z; y_history : history; y_parent : channel -> json }.
Definition memory_of {U} (k : kstate U) : memory := {| y_count := k_count k; y_history := k_history k; y_parent := k_phdr k |}.

(** The types the kernel handles. *)
Definition handled_types : list string :=
  ["execute_request"; "complete_request"; "inspect_request"; "history_request"; "is_complete_request"; "comm_info_request";
   "comm_open"; "comm_close"; "comm_msg"; "kernel_info_request"; "shutdown_request"; "interrupt_request"].
(** Those whose handler reads fields of the content. *)
Definition reading_types : list string :=
  ["execute_request"; "complete_request"; "inspect_request"; "history_request"; "is_complete_request"; "comm_info_request";
   "comm_open"; "comm_close"; "comm_msg"; "shutdown_request"].

Section Does.
  Variable W : manner.
  Variable targets : string -> Prop.     (* the targets that are registered *)
  Variable regex : regex_lib.
  (** [does c ids ph n h ty content gs n' h']: with the count [n], the history [h] and the parent headers [ph], a message of type
      [ty] with [content] from [ids] makes the kernel say [gs] and leaves the count [n'] and the history [h']. *)
  Inductive does (c : channel) (ids : list string) (ph : channel -> json) (n : Z) (h : history) : string -> json -> list gist -> Z -> history -> Prop :=
  | do_execute content p n' : exec_params content p -> n' = (if x_silent p then n else n + 1)%Z -> (n' <= int_max)%Z ->
      does c ids ph n h "execute_request" content
        ((if x_silent p then [] else [Said SHELL "execute_input" (ph SHELL) (JObj [("code", JStr (x_code p)); ("execution_count", JInt n')])]) ++
         List.map (fun x => Said SHELL (fst x) (ph SHELL) (snd x)) (w_cell W n' (x_code p)) ++
         [Replied c ids "execute_reply" (ph c) (w_execute W n' (x_code p))])
        n' (h ++ if stores p then [{| h_session := "0"; h_line := dec_of_Z (x_count p); h_input := x_code p; h_output := "" |}] else [])
  | do_complete m code pos : str_field m "code" "" code -> num_field m "cursor_pos" (-1) pos ->
      does c ids ph n h "complete_request" (JObj m) [Replied c ids "complete_reply" (ph c) (w_complete W code pos)] n h
  | do_inspect m code pos level : str_field m "code" "" code -> num_field m "cursor_pos" (-1) pos -> num_field m "detail_level" 0 level ->
      does c ids ph n h "inspect_request" (JObj m) [Replied c ids "inspect_reply" (ph c) (w_inspect W code)] n h
  | do_is_complete m code : str_field m "code" "" code ->
      does c ids ph n h "is_complete_request" (JObj m) [Replied c ids "is_complete_reply" (ph c) (w_is_complete W code)] n h
  | do_history content j : process_request regex content h = Ok j ->
      does c ids ph n h "history_request" content [Replied c ids "history_reply" (ph c) j] n h
  | do_comm_info content name : (content = JNull \/ exists m, content = JObj m /\ str_field m "target_name" "" name) ->
      does c ids ph n h "comm_info_request" content [Replied c ids "comm_info_reply" (ph c) (JObj [("comms", JObj []); ("status", JStr "ok")])] n h
  | do_kernel_info content : does c ids ph n h "kernel_info_request" content [Replied c ids "kernel_info_reply" (ph c) (w_info W)] n h
  | do_shutdown m again : bool_field m "restart" false again ->
      does c ids ph n h "shutdown_request" (JObj m)
        [Said CONTROL "shutdown" (ph CONTROL) (JObj [("restart", JBool again)]); Replied c ids "shutdown_reply" (ph c) (JObj [("restart", JBool again)])] n h
  | do_interrupt content :
      does c ids ph n h "interrupt_request" content
        [Said CONTROL "interrupt" (ph CONTROL) (JObj []); Replied c ids "interrupt_reply" (ph c) (JObj [])] n h
  (** No comm is ever registered: the identifier is unknown; nor is a target that the interpreter has not registered. *)
  | do_comm_open m name : mfind "target_name" m = Some (JStr name) -> ~ targets name ->
      does c ids ph n h "comm_open" (JObj m) [] n h
  | do_comm ty m id : In ty ["comm_close"; "comm_msg"] -> mfind "comm_id" m = Some (JStr id) -> slen id <= 30 ->
      does c ids ph n h ty (JObj m) [] n h
  (** A content that is not an object: the type error is caught. *)
  | do_no_object ty content : In ty reading_types -> (forall m, content <> JObj m) -> ~ (ty = "comm_info_request" /\ content = JNull) ->
      does c ids ph n h ty content [] n h
  | do_other ty content : ~ In ty handled_types -> does c ids ph n h ty content [] n h.
End Does.

Section Session.
  Variable W : manner.
  Variable targets : string -> Prop.
  Context {U : Type} (E : env U).
  Definition with_parent (c : channel) (h : json) (ph : channel -> json) : channel -> json :=
    fun c' => if chan_eqb c c' then h else ph c'.
  (** One message: rejected, without effect; or busy, what is done, idle. *)
  Inductive reacts : memory -> channel -> frames -> list gist -> memory -> Prop :=
  | re_rejected y c w : rejected E w -> reacts y c w [] y
  | re_done y c w m ty gs n' h' : accepted E w m -> typed (m_header (m_base m)) ty ->
      let ph := with_parent c (m_header (m_base m)) (y_parent y) in
      does W targets (e_regex E) c (m_ids m) ph (y_count y) (y_history y) ty (m_content (m_base m)) gs n' h' ->
      reacts y c w
        (Said c "status" (m_header (m_base m)) (JObj [("execution_state", JStr "busy")]) :: gs ++
         [Said c "status" (m_header (m_base m)) (JObj [("execution_state", JStr "idle")])])
        {| y_count := n'; y_history := h'; y_parent := ph |}.
  Inductive session : memory -> list (channel * frames) -> list gist -> memory -> Prop :=
  | se_nil y : session y [] [] y
  | se_snoc y ws gs y1 c w gs1 y2 : session y ws gs y1 -> reacts y1 c w gs1 y2 -> session y (ws ++ [(c, w)]) (gs ++ gs1) y2.
End Session.

(** The two kernels, each with its manner and its targets; the memory at the start. *)
Inductive shipped (E : env unit) : manner -> (string -> Prop) -> Prop :=
| sh_example : example_kernel E -> shipped E example_manner (fun _ => False)
| sh_test : test_kernel E -> shipped E test_manner (fun name => name = "test_target").
Definition fresh : memory := {| y_count := 0; y_history := []; y_parent := fun _ => JObj [] |}.
