(** Configuration, end points, ports, temporary files: src/xkernel_configuration.cpp, src/xmiddleware.cpp,
    src/xsystem.cpp, and the part of src/xkernel.cpp that sets up the authentication. *)
From Verif Require Import Base Json JsonText Auth.

(** ** Configuration *)
(** [xconfiguration], include/xeus/xkernel_configuration.hpp:20-31. *)
Record config := {
  g_transport : string; g_ip : string; g_control : string; g_shell : string; g_stdin : string; g_iopub : string; g_hb : string;
  g_scheme : string; g_key : string }.
(** [ifs >> doc]: the value at the beginning of the stream; what follows is not read (the parser is not strict).
    A stream that is not open is empty. *)
Definition read_value (file : option string) : res json :=
  match file with
  | None => Exn parse_error
  | Some s => let s := skip_bom s in match pval (fuel_for s) s with Some (j, _) => Ok j | None => Exn parse_error end
  end.
(** [doc[key].get<std::string>()], [std::to_string(doc[key].get<int>())] on a non-const value: a missing key
    reads as null. The null that is inserted is not visible: the access throws. *)
Definition string_at (key : string) (doc : json) : res string := let* (v, _) := jget_mut key doc in get_string v.
Definition port_at (key : string) (doc : json) : res string := let* (v, _) := jget_mut key doc in let* n := get_int v in Ok (dec_of_Z n).
(** [load_configuration], src/xkernel_configuration.cpp:21-46. *)
Definition load_configuration (file : option string) : res config :=
  let* doc := read_value file in
  let* transport := string_at "transport" doc in
  let* ip := string_at "ip" doc in
  let* control := port_at "control_port" doc in
  let* shell := port_at "shell_port" doc in
  let* stdin := port_at "stdin_port" doc in
  let* iopub := port_at "iopub_port" doc in
  let* hb := port_at "hb_port" doc in
  let* scheme := value_string "signature_scheme" "" doc in
  let* key := (if negb (String.eqb scheme "") then string_at "key" doc else Ok "") in
  Ok {| g_transport := transport; g_ip := ip; g_control := control; g_shell := shell; g_stdin := stdin; g_iopub := iopub; g_hb := hb;
        g_scheme := scheme; g_key := key |}.
(** The beginning of [xkernel::init], src/xkernel.cpp:119-131; [guid]: the third [new_xguid]. *)
Definition init_auth (guid : string) (c : config) : res auth :=
  make_xauthentication (g_scheme c) (if String.eqb (g_key c) "" then guid else g_key c).

(** ** End points, src/xmiddleware.cpp:18-34, 91-95 *)
Definition get_controller_end_point (channel : string) : string := "inproc://" +++ channel +++ "_controller".
Definition get_publisher_end_point : string := "inproc://publisher".
Definition get_end_point (transport ip port : string) : string :=
  transport +++ "://" +++ ip +++ (if String.eqb transport "tcp" then ":" else "-") +++ port.
(** [s.find_last_of(c) + 1]: 0 if there is none. *)
Fixpoint after_last (c : ascii) (s : string) : option string :=
  match s with "" => None | String d r => match after_last c r with Some t => Some t | None => if Ascii.eqb c d then Some r else None end end.
(** [get_socket_port]: [last_endpoint] is read into 32 bytes with a final NUL; a longer one is an error. *)
Definition get_socket_port (last_endpoint : string) : res string :=
  if 32 <? S (slen last_endpoint) then Exn (Std "zmq::error_t")
  else Ok (match after_last ":" last_endpoint with Some t => t | None => last_endpoint end).

(** ** Free ports, src/xmiddleware.cpp:41-66, 97-106 *)
(** [ports n]: the [n]-th number drawn; [binds]: the end points zmq_bind accepts at the [n]-th try.
    [tries] does not wrap: [max_tries] below 2^64 - 1. Result: the end points tried, and the port. *)
Fixpoint try_ports (k n : nat) (transport ip : string) (ports : nat -> Z) (binds : nat -> string -> bool) : list string * string :=
  match k with
  | 0 => ([], "")
  | S k =>
      let port := dec_of_Z (ports n) in
      let e := get_end_point transport ip port in
      if binds n e then ([e], port)
      else let (l, r) := try_ports k (S n) transport ip ports binds in (e :: l, r)
  end.
Definition find_free_port_impl (max_tries : nat) := try_ports max_tries 0.
(** [find_free_port]: unbinding an end point that is not bound throws. *)
Definition find_free_port (max_tries : nat) (ports : nat -> Z) (binds : nat -> string -> bool) : res string :=
  let (tried, port) := find_free_port_impl max_tries "tcp" "127.0.0.1" ports binds in
  if String.eqb port "" then Exn (Std "zmq::error_t") else Ok port.

(** ** Temporary directory, src/xsystem.cpp:28-66 *)
Definition remove_ending_separator (path : string) : res string :=
  match slen path with
  | 0 => UB "path[-1]"
  | S n => Ok (if sprefix "/" (sdrop n path) then stake n path else path)
  end.
Definition get_temp_directory_path_impl (env : string -> option string) : res string :=
  match env "TMPDIR" with Some p => remove_ending_separator p | None =>
  match env "TMP" with Some p => remove_ending_separator p | None =>
  match env "TEMPDIR" with Some p => remove_ending_separator p | None =>
  match env "TEMP" with Some p => remove_ending_separator p | None => Ok "/tmp" end end end end.

(** ** Directories, src/xsystem.cpp:68-87 *)
(** A file system: what is at a path, given as the list of its components from the root down, and where the process may add
    entries. Not modelled: links, "." and "..", search permission, changes by others in between. A relative path is taken from
    the root. *)
Inductive node := NFile | NDir.
Record tree := { t_at : list string -> option node; t_may : list string -> bool }.
Fixpoint split_slash (s : string) (acc : string) : list string :=
  match s with
  | "" => [acc]
  | String c r => if Ascii.eqb c "/" then acc :: split_slash r "" else split_slash r (acc +++ String c "")
  end.
Definition components (path : string) : list string := filter (fun s => negb (String.eqb s "")) (split_slash path "").
Definition ends_slash (path : string) : bool := match slen path with 0 => false | S n => sprefix "/" (sdrop n path) end.
(** stat(2) succeeds: the empty path does not exist; a path with a final slash is a directory. *)
Definition stat_ok (t : tree) (path : string) : bool :=
  negb (String.eqb path "") &&
  match t_at t (components path) with Some NDir => true | Some NFile => negb (ends_slash path) | None => false end.
(** mkdir(2): the parent is a directory in which the process may create entries, and there is nothing at the path. *)
Definition mkdir (t : tree) (path : string) : tree * bool :=
  let p := components path in
  match t_at t p, t_at t (removelast p) with
  | None, Some NDir =>
      if negb (String.eqb path "") && t_may t (removelast p)
      then ({| t_at := fun q => if list_eq_dec string_dec q p then Some NDir else t_at t q; t_may := t_may t |}, true)
      else (t, false)
  | _, _ => (t, false)
  end.
(** [path.rfind('/')]. *)
Fixpoint rfind_slash (s : string) : option nat :=
  match s with
  | "" => None
  | String c r => match rfind_slash r with Some n => Some (S n) | None => if Ascii.eqb c "/" then Some 0 else None end
  end.
Fixpoint create_directory_fuel (fuel : nat) (path : string) (t : tree) : tree * bool :=
  match fuel with
  | 0 => (t, false)
  | S fuel =>
      let t := match rfind_slash path with
               | Some (S n) => fst (create_directory_fuel fuel (stake (S n) path) t)
               | _ => t
               end in
      if stat_ok t path then (t, true) else mkdir t path
  end.
(** The recursion shortens the path. *)
Definition create_directory (path : string) (t : tree) : tree * bool := create_directory_fuel (S (slen path)) path t.

(** ** Files of cells, src/xsystem.cpp:98-126; [hash]: xtl::murmur2_x86 with the seed 0xc70f6907 *)
Definition get_tmp_prefix (tmp name : string) (pid : Z) : string := tmp +++ "/" +++ name +++ "_" +++ dec_of_Z pid +++ "/".
Definition cell_file_count (prefix : string) (count : Z) (ext : string) : string := prefix +++ "/[" +++ dec_of_Z count +++ "]" +++ ext.
Definition cell_file_hash (hash : string -> N) (prefix content suffix : string) : string := prefix +++ dec_of_N (hash content) +++ suffix.
