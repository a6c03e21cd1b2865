(** The interpreters that come with xeus: the example kernel, example/src/custom_interpreter.cpp, and the test kernel,
    test/test_interpreter.cpp, as user code of the kernel. Not modelled: what they print on the standard output of the process. *)
From Verif Require Import Base Json JsonText Auth Message History Comm Tree Kernel.

(** A call of a function of xinterpreter; what it throws is not caught by the interpreter. *)
Definition call (o : uop0 unit) (k : ucode unit json) : ucode unit json :=
  Do (Ar := @uans1 unit) (AOp o) (fun r => match r with inl _ => k | inr e => Throw e end).
(** A default-constructed [nl::json result] with fields assigned in order. *)
Definition fields (l : list (string * json)) : json := jobj l.
(** [xinterpreter::internal_request_impl], src/xinterpreter.cpp:242-248; neither class overrides it. *)
Definition no_internal : json := fields [("status", JStr "error"); ("what", JStr "internal request not supported")].
(** [s[0]] of a const string: the terminating NUL if it is empty. *)
Definition first_char (s : string) : ascii := match s with "" => chr 0 | String c _ => c end.

(** ** The example kernel *)
(** example/src/custom_interpreter.cpp:22-50 *)
Definition custom_execute (execution_counter : Z) : ucode unit json :=
  call (AExecResult execution_counter (fields [("text/plain", JStr "Hello World !!")]) (JObj []))
    (call (AExecError "TypeError" "123" ["!@#$"; "*(*"])
       (Ret (fields [("status", JStr "ok")]))).
(** 57-80 *)
Definition custom_complete (code : string) (cursor_pos : Z) : json :=
  if Ascii.eqb (first_char code) "H" then
    fields [("status", JStr "ok"); ("matches", JArr [JStr "Hello"; JStr "Hey"; JStr "Howdy"]); ("cursor_start", JInt 5); ("cursor_end", JInt cursor_pos)]
  else
    fields [("status", JStr "ok"); ("matches", JArr []); ("cursor_start", JInt cursor_pos); ("cursor_end", JInt cursor_pos)].
(** 82-100 *)
Definition custom_inspect (code : string) : json :=
  fields ((if String.eqb code "print"
           then [("found", JBool true); ("text/plain", JStr "Print objects to the text stream file, [...]")]
           else [("found", JBool false)]) ++ [("status", JStr "ok")]).
(** 102-117 *)
Definition custom_is_complete : json := fields [("status", JStr "complete")].
(** 119-129 *)
Definition custom_info : json :=
  fields [("implementation", JStr "my_kernel"); ("implementation_version", JStr "0.1.0");
          ("language_info", fields [("name", JStr "python"); ("version", JStr "3.7"); ("mimetype", JStr "text/x-python"); ("file_extension", JStr ".py")])].
(** The class; [shutdown_request_impl], 131-133, returns nothing. *)
Definition custom_interpreter (r : request) : ucode unit json :=
  match r with
  | RExecute n _ _ _ _ _ => custom_execute n
  | RComplete code pos => Ret (custom_complete code pos)
  | RInspect code _ _ => Ret (custom_inspect code)
  | RIsComplete _ => Ret custom_is_complete
  | RKernelInfo => Ret custom_info
  | RShutdown => Ret JNull
  | RInternal _ => Ret no_internal
  end.
(** 52-55 *)
Definition custom_configure : ucode unit unit := Ret tt.

(** ** The test kernel *)
(** test/test_interpreter.cpp:51-52: a raw string with a line break and the indentation of the source. *)
Definition html_content : string :=
  "<iframe class=""xpyt-iframe-pager"" src=""" +++ String (chr 10) "                https://xeus.readthedocs.io""></iframe>".
(** 30-78 *)
Definition test_execute (execution_counter : Z) (code : string) : ucode unit json :=
  let say name (k : ucode unit json) := call (AStream name code) k in
  let rest : ucode unit json :=
    if String.eqb code "?" then
      Ret (fields [("status", JStr "ok");
                   ("payload", JArr [fields [("data", fields [("text/plain", JStr "https://xeus.readthedocs.io"); ("text/html", JStr html_content)]);
                                             ("source", JStr "page"); ("start", JInt 0)]]);
                   ("user_expressions", JObj [])])
    else
      call (AExecResult execution_counter (fields [("text/plain", JStr code)]) JNull)
        (Ret (fields [("status", JStr "ok"); ("payload", JArr []); ("user_expressions", JObj [])])) in
  let rest := if String.eqb code "error" then say "stderr" rest else rest in
  if String.eqb code "hello, world" then say "stdout" rest else rest.
(** 80-90 *)
Definition test_complete : json :=
  fields [("status", JStr "ok"); ("matches", JArr [JStr "a.test1"; JStr "a.test2"]); ("cursor_start", JInt 2); ("cursor_end", JInt 6)].
(** 92-102 *)
Definition test_inspect : json :=
  fields [("status", JStr "ok"); ("found", JBool true); ("data", fields [("text/plain", JStr "")]); ("metadata", fields [("text/plain", JStr "")])].
(** 104-113 *)
Definition test_is_complete (code : string) : json :=
  fields (("status", JStr code) :: if String.eqb code "incomplete" then [("indent", JStr "   ")] else []).
(** 115-126 *)
Definition test_info : json :=
  fields [("implementation", JStr "cpp_test"); ("implementation_version", JStr "1.0.0"); ("banner", JStr "test_kernel");
          ("language_info", fields [("name", JStr "cpp"); ("version", JStr "14.0.0"); ("mimetype", JStr "text/x-c++src"); ("file_extension", JStr ".cpp")])].
Definition test_interpreter (r : request) : ucode unit json :=
  match r with
  | RExecute n code _ _ _ _ => test_execute n code
  | RComplete _ _ => Ret test_complete
  | RInspect _ _ _ => Ret test_inspect
  | RIsComplete code => Ret (test_is_complete code)
  | RKernelInfo => Ret test_info
  | RShutdown => Ret JNull
  | RInternal _ => Ret no_internal
  end.
(** 21-28: the callback only prints the name of the target; the comm is not moved from. *)
Definition test_configure : ucode unit unit :=
  Do (Ar := @uans1 unit) (AOp (ARegTarget "test_target" (Some 0))) (fun r => match r with inl _ => Ret tt | inr e => Throw e end).

(** ** The kernels *)
(** example/src/main.cpp:16-31, test/main.cpp:16-28, test/main_shell.cpp, test/main_control.cpp: no logger
    (src/xkernel.cpp:133-136), no debugger (include/xeus/xkernel.hpp:54, 63, make_null_debugger), error handler [strict]. *)
Record runs_with (conf : ucode unit unit) (int : request -> ucode unit json) (E : env unit) : Prop := {
  rw_configure : e_configure E = conf;
  rw_interp : e_interp E = int;
  rw_callback : forall n a m, e_callback E n a m = Ret tt;
  rw_handler : forall n m, e_handler E n m = Ret tt;   (* there are none *)
  rw_debugger : e_debugger E = None;
  rw_logger : forall l, e_logger E l = Ok tt;
  rw_eh : e_eh E = EStrict
}.
Definition example_kernel : env unit -> Prop := runs_with custom_configure custom_interpreter.
Definition test_kernel : env unit -> Prop := runs_with test_configure test_interpreter.
