(** The programs that come with xeus, from their command line: [main] in example/src/main.cpp:16-31, test/main.cpp:16-28,
    test/main_shell.cpp:17-38 and test/main_control.cpp:17-38, down to the loop of the server. Not modelled: what they print, and failures
    to create the context or the sockets. *)
From Verif Require Import Base Json JsonText Auth Message History Comm Tree Kernel Server Split Host Construct Shipped.

(** What the process finds on the machine: the contents of the files that can be opened; the name in the entry of the effective user in the
    password file; the variable USER; clock, cryptography, regular expressions, messages arriving on the stdin socket, and the choices left
    open by the language (Kernel.v). *)
Record computer := {
  p_host : host;
  p_files : string -> option string;
  p_entry : option string; p_user : option string;
  p_crypto : crypto; p_now : nat -> string; p_regex : regex_lib;
  p_stdin : nat -> frames; p_indet : indet; p_long : string -> res string }.

Inductive program := PExample | PTest | PTestShell | PTestControl.
Definition interpreter_of (p : program) : request -> ucode unit json := match p with PExample => custom_interpreter | _ => test_interpreter end.
Definition configure_of (p : program) : ucode unit unit := match p with PExample => custom_configure | _ => test_configure end.
(** The server: the default one, or a split server (src/xserver.cpp:106-121). *)
Definition server_of (p : program) : option variant :=
  match p with PExample | PTest => None | PTestShell => Some ShellMain | PTestControl => Some ControlMain end.
Definition splits (p : program) : bool := match server_of p with Some _ => true | None => false end.

(** [(argc == 1) ? "connection.json" : argv[2]], example/src/main.cpp:19: [argv[argc]] is a null pointer, and a string cannot be made of it. *)
Definition file_name (argv : list string) : res string :=
  if Nat.eqb (List.length argv) 1 then Ok "connection.json"
  else match nth_error argv 2 with
       | Some f => Ok f
       | None => UB "std::string of argv[2], which is null or past the end"
       end.

Section Main.
  Context (C : computer).
  (** [get_user_name], src/xkernel.cpp:40-71. *)
  Definition get_user_name : string :=
    match p_entry C with
    | Some name => name
    | None => match p_user C with Some name => name | None => "unspecified user" end
    end.

  (** The arguments of the constructor: no logger; no debugger (make_null_debugger, include/xeus/xkernel.hpp:54, 63). [configure] is run by
      [kernel_start]. *)
  Definition args_of (p : program) : args :=
    {| x_split := splits p; x_logger := false; x_env := false; x_debugger := fun _ _ => Ok false; x_configure := Ok tt |}.
  (** The kernel core of the constructed kernel: the identifiers that [init] made are not made again (src/xkernel.cpp:121-127). *)
  Definition env_of (p : program) (c : config) (k : made) : env unit := {|
    e_crypto := p_crypto C; e_auth := n_auth k; e_eh := EStrict;
    e_kernel_id := n_kernel k; e_user_name := get_user_name; e_session_id := n_session k;
    e_guid := fun n => h_guid (p_host C) (n + if String.eqb (g_key c) "" then 3 else 2);
    e_now := p_now C; e_stdin := p_stdin C; e_logger := fun _ => Ok tt;
    e_regex := p_regex C; e_indet := p_indet C; e_long_id := p_long C;
    e_configure := configure_of p; e_interp := interpreter_of p; e_split := splits p; e_debugger := None;
    e_callback := fun _ _ _ => Ret tt; e_handler := fun _ _ => Ret tt; e_input := fun _ _ => Ret tt |}.

  (** The kernel when the loop of its server begins: core, sockets, and the start message that was published. *)
  Record serving := { v_env : env unit; v_kernel : kstate unit; v_start : frames; v_made : made }.
  Definition last_frames (evs : list event) : frames := match rev evs with EPublish _ _ w :: _ => w | _ => [] end.
  (** [main]: an exception is not caught, [std::terminate] ends the process. *)
  Definition main (p : program) (argv : list string) : res serving :=
    let* f := file_name argv in
    let* c := load_configuration (p_files C f) in
    let* k := snd (init (p_host C) (args_of p) c) in
    let E := env_of p c k in
    match run (kernel_start E) (kinit tt []) with
    | (s, Ok _) => Ok {| v_env := E; v_kernel := s; v_start := last_frames (k_trace s); v_made := k |}
    | (_, Exn e) => Exn e
    | (_, UB w) => UB w
    end.
End Main.
