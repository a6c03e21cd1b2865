(** Properties C50-C56, C66: configuration, end points, ports, directories, loggers, the registered interpreter, timestamps, cell files. *)
From Verif Require Import Base BaseFacts Json JsonText JsonTextProofs JsonParseProofs Utf8 Utf8Proofs Auth Message Host Logger HostSpec HostProofs DirProofs LoggerProofs ClockProofs.

(** ** C50 *)
Definition demo_file : string := "{""transport"":""tcp"",""ip"":""127.0.0.1"",""control_port"":50160,""shell_port"":57503,""stdin_port"":52597,""iopub_port"":40885,""hb_port"":42540,""signature_scheme"":""hmac-sha256"",""key"":""a0436f6c""}".
Definition demo_config : config :=
  {| g_transport := "tcp"; g_ip := "127.0.0.1"; g_control := "50160"; g_shell := "57503"; g_stdin := "52597"; g_iopub := "40885"; g_hb := "42540";
     g_scheme := "hmac-sha256"; g_key := "a0436f6c" |}.
(** A well-formed connection file gives exactly its fields. *)
Theorem C50_loads : forall text doc c, parse text = Ok doc -> declares doc c -> load_configuration (Some text) = Ok c.
Proof. exact declares_loads. Qed.
Print Assumptions C50_loads.
Example C50_loads_ex : load_configuration (Some demo_file) = Ok demo_config.
Proof.
  eapply C50_loads; [vm_compute; reflexivity|]. unfold declares, str_field, port_field.
  repeat split; try (vm_compute; reflexivity); try discriminate; eexists; repeat split; try (vm_compute; reflexivity); vm_compute; discriminate.
Qed.
(** Which files are accepted: the value at the beginning decides; a missing or wrongly typed field is an exception, and so is a file that
    does not begin with a value. *)
Theorem C50_accepted : forall file,
  (forall doc, read_value file = Ok doc ->
    ((exists c, load_configuration file = Ok c) <-> usable doc) /\
    (~ usable doc -> (forall k s, jfield k doc <> Some (JFloat s)) -> exists e, load_configuration file = Exn e)) /\
  (forall e, read_value file = Exn e -> load_configuration file = Exn e) /\
  (forall text rest m, parse text = Ok (JObj m) -> read_value (Some (text +++ rest)) = Ok (JObj m)).
Proof.
  intros file. split; [|split].
  - intros doc P. split; [now apply loads_usable|]. intros N F. pose proof (loads_usable file doc P) as (L & _).
    destruct (load_configuration file) as [c|e|w] eqn:E; [exfalso; eauto|eauto|].
    apply load_ub in E as (d & k & s & R & _ & J). rewrite P in R. injection R as <-. exfalso. exact (F k s J).
  - intros e H. unfold load_configuration. now rewrite H.
  - exact read_trailing.
Qed.
Print Assumptions C50_accepted.
Definition drop_field (k : string) (doc : json) : json := match doc with JObj m => JObj (mdel k m) | _ => doc end.
Definition put_field (k : string) (v : json) (doc : json) : json := match doc with JObj m => JObj (mset k v m) | _ => doc end.
Definition demo_doc : json := match parse demo_file with Ok j => j | _ => JNull end.
Definition text_of (j : json) : string := match dump EStrict j with Ok t => t | _ => "" end.
Example C50_missing_ex : load_configuration (Some (text_of (drop_field "ip" demo_doc))) = Exn type_error_302 /\
  load_configuration (Some (text_of (put_field "hb_port" (JStr "80") demo_doc))) = Exn type_error_302 /\
  load_configuration (Some (text_of (put_field "transport" (JInt 3) demo_doc))) = Exn type_error_302 /\ load_configuration None = Exn parse_error.
Proof. vm_compute. auto. Qed.
(** A configuration with a known scheme, or "none", starts a kernel; with a non-empty key the kernel uses that key. *)
Theorem C50_startable : forall guid c,
  (g_scheme c = "none" -> init_auth guid c = Ok NoAuth) /\
  (In (g_scheme c) schemes -> g_key c <> "" -> init_auth guid c = Ok (HmacAuth (g_scheme c) (g_key c))) /\
  (g_scheme c <> "none" -> ~ In (g_scheme c) schemes -> exists e, init_auth guid c = Exn e).
Proof.
  intros guid c. unfold init_auth, make_xauthentication. split; [intros ->; reflexivity|]. split.
  - intros I N. apply String.eqb_neq in N. rewrite N. destruct (String.eqb_spec (g_scheme c) "none") as [E|_].
    + exfalso. rewrite E in I. revert I. vm_compute. intros H. repeat (destruct H as [H|H]; [discriminate|]). exact H.
    + assert (existsb (String.eqb (g_scheme c)) schemes = true) as ->; auto. apply existsb_exists. exists (g_scheme c). split; auto. apply String.eqb_refl.
  - intros N I. apply String.eqb_neq in N. rewrite N. destruct (existsb _ schemes) eqn:E; eauto.
    apply existsb_exists in E as (x & X & E). apply String.eqb_eq in E. subst. contradiction.
Qed.
Print Assumptions C50_startable.
Example C50_startable_ex : init_auth "g" demo_config = Ok (HmacAuth "hmac-sha256" "a0436f6c").
Proof. apply C50_startable; vm_compute; [auto 10|discriminate]. Qed.
(** An accepted file need not start a kernel (no scheme), need not use the declared key (empty key), and ports that are not port numbers are
    accepted and changed. *)
Theorem C50_accepted_starts_refuted : ~ (forall guid file c, load_configuration file = Ok c -> exists a, init_auth guid c = Ok a).
Proof.
  intros H. specialize (H "g" (Some (text_of (drop_field "signature_scheme" demo_doc)))).
  destruct (load_configuration (Some (text_of (drop_field "signature_scheme" demo_doc)))) as [c| |] eqn:E; [|vm_compute in E; discriminate|vm_compute in E; discriminate].
  destruct (H c eq_refl) as (a & A). vm_compute in E. injection E as <-. vm_compute in A. discriminate.
Qed.
Theorem C50_key_refuted : ~ (forall guid file c a, load_configuration file = Ok c -> init_auth guid c = Ok a -> a = HmacAuth (g_scheme c) (g_key c) \/ a = NoAuth).
Proof.
  intros H. specialize (H "g" (Some (text_of (put_field "key" (JStr "") demo_doc)))).
  destruct (load_configuration (Some (text_of (put_field "key" (JStr "") demo_doc)))) as [c| |] eqn:E; [|vm_compute in E; discriminate|vm_compute in E; discriminate].
  vm_compute in E. injection E as <-. specialize (H _ (HmacAuth "hmac-sha256" "g") eq_refl). vm_compute in H. destruct H; [reflexivity|discriminate|discriminate].
Qed.
Theorem C50_ports_refuted : ~ (forall file doc c, read_value file = Ok doc -> load_configuration file = Ok c -> port_field "shell_port" doc (g_shell c)).
Proof.
  intros H. specialize (H (Some (text_of (put_field "shell_port" (JInt 4294967297) demo_doc)))).
  destruct (load_configuration (Some (text_of (put_field "shell_port" (JInt 4294967297) demo_doc)))) as [c| |] eqn:E; [|vm_compute in E; discriminate|vm_compute in E; discriminate].
  destruct (read_value (Some (text_of (put_field "shell_port" (JInt 4294967297) demo_doc)))) as [doc| |] eqn:R; [|vm_compute in R; discriminate|vm_compute in R; discriminate].
  destruct (H doc c eq_refl eq_refl) as (n & F & B & _). vm_compute in R. injection R as <-. vm_compute in F. injection F as <-. lia.
Qed.
Example C50_ports_ex :
  (exists c, load_configuration (Some (text_of (put_field "shell_port" (JBool true) demo_doc))) = Ok c /\ g_shell c = "1") /\
  (exists c, load_configuration (Some (text_of (put_field "shell_port" (JFloat "8888.7") demo_doc))) = Ok c /\ g_shell c = "8888").
Proof. split; eexists; split; vm_compute; reflexivity. Qed.

(** ** C51 *)
(** For tcp the port is recovered from the end point; whole end points of at most 31 bytes. *)
Theorem C51_tcp : forall ip port, (forall a b, port <> a +++ ":" +++ b) -> slen (get_end_point "tcp" ip port) <= 31 ->
  get_socket_port (get_end_point "tcp" ip port) = Ok port.
Proof. intros ip port N. apply tcp_port. intros a b. apply N. Qed.
Print Assumptions C51_tcp.
Example C51_tcp_ex : get_socket_port (get_end_point "tcp" "127.0.0.1" "50160") = Ok "50160" /\ get_end_point "tcp" "127.0.0.1" "50160" = "tcp://127.0.0.1:50160".
Proof.
  split; [|reflexivity]. apply C51_tcp; [|vm_compute; lia]. intros a b H. apply (f_equal (after_last ":")) in H.
  assert (after_last ":" "50160" = None) as E by reflexivity. rewrite E in H.
  destruct (after_last ":" (a +++ ":" +++ b)) eqn:F; [discriminate|]. apply after_last_none in F. now apply (F a b).
Qed.
(** In general: what follows the last colon, everything if there is none; an end point of more than 31 bytes is an error. *)
Theorem C51_port : forall e,
  (31 < slen e -> get_socket_port e = Exn (Std "zmq::error_t")) /\
  (slen e <= 31 -> (forall a p, e = a +++ ":" +++ p -> nochar ":" p -> get_socket_port e = Ok p) /\ (nochar ":" e -> get_socket_port e = Ok e)).
Proof.
  intros e. unfold get_socket_port. split; intros L; destruct (Nat.ltb_spec 32 (S (slen e))); try lia; [reflexivity|]. split.
  - intros a p -> N. change (a +++ ":" +++ p) with (a +++ String ":" p). now rewrite after_last_app.
  - intros N. apply after_last_none in N. now rewrite N.
Qed.
Print Assumptions C51_port.
Example C51_port_ex : get_socket_port "" = Ok "" /\ get_socket_port "tcp://[::1]:80" = Ok "80".
Proof. split; reflexivity. Qed.
(** Other transports: everything behind the first colon. *)
Theorem C51_other : forall transport ip port, transport <> "tcp" -> nochar ":" ip -> nochar ":" port -> slen (get_end_point transport ip port) <= 31 ->
  get_socket_port (get_end_point transport ip port) = Ok ("//" +++ ip +++ "-" +++ port).
Proof. exact other_port. Qed.
Print Assumptions C51_other.
Theorem C51_other_refuted : ~ (forall transport ip port, nochar ":" ip -> nochar ":" port -> slen (get_end_point transport ip port) <= 31 ->
  get_socket_port (get_end_point transport ip port) = Ok port).
Proof.
  intros H. specialize (H "ipc" "k" "1"). rewrite C51_other in H; try discriminate; try (apply after_last_none; reflexivity); [|vm_compute; lia].
  assert (Ok "//k-1" = Ok "1") as X; [|discriminate]. apply H; try (apply after_last_none; reflexivity). vm_compute. lia.
Qed.
(** A long end point cannot be asked for its port. *)
Theorem C51_long_refuted : ~ (forall ip port, (forall a b, port <> a +++ ":" +++ b) -> get_socket_port (get_end_point "tcp" ip port) = Ok port).
Proof.
  intros H. specialize (H "[2001:db8:85a3::8a2e:370:7334]" "50160"). 
  assert (Exn (A := string) (Std "zmq::error_t") = Ok "50160") as X; [|discriminate]. rewrite <- H; [reflexivity|].
  intros a b E. assert (nochar ":" "50160") as N by (apply after_last_none; reflexivity). exact (N a b E).
Qed.
(** Different channels have different internal end points, which are not the end point of the publisher; different ports, different end points. *)
Theorem C51_distinct : (forall a b, a <> b -> get_controller_end_point a <> get_controller_end_point b) /\
  (forall a, get_controller_end_point a <> get_publisher_end_point) /\
  (forall transport ip p q, p <> q -> get_end_point transport ip p <> get_end_point transport ip q).
Proof.
  split; [|split; [exact controller_publisher|]].
  - intros a b N H. apply N. now apply controller_inj.
  - intros transport ip p q N H. apply N. eapply end_point_inj; eauto.
Qed.
Print Assumptions C51_distinct.
Example C51_distinct_ex : get_controller_end_point "shell" <> get_controller_end_point "publisher" /\ get_controller_end_point "publisher" <> get_publisher_end_point.
Proof. split; apply C51_distinct; discriminate. Qed.

(** ** C52 *)
(** The end points tried are those of the numbers drawn, in order, at most [max_tries]; the result is the port bound, by the last of them, or
    empty exactly if all failed. *)
Theorem C52_search : forall max_tries transport ip ports binds tried port,
  find_free_port_impl max_tries transport ip ports binds = (tried, port) ->
  let e i := get_end_point transport ip (dec_of_Z (ports i)) in
  List.length tried <= max_tries /\
  (forall i x, nth_error tried i = Some x -> x = e i) /\
  (port <> "" -> exists j, List.length tried = S j /\ port = dec_of_Z (ports j) /\ binds j (e j) = true /\ forall i, i < j -> binds i (e i) = false) /\
  (port = "" <-> forall i, i < max_tries -> binds i (e i) = false).
Proof.
  intros max_tries transport ip ports binds tried port H e. destruct (try_ports_spec transport ip ports binds _ _ _ _ H) as (A & B). cbn [Nat.add] in *. subst e.
  destruct B as [(j & L & K & P & Bj & F)|(P & L & F)].
  - split; [lia|]. split; [exact A|]. split; [intros _; exists j; auto|]. split; [intros E; exfalso; rewrite E in P; symmetry in P; revert P; apply dec_nonempty|].
    intros X. rewrite X in Bj by lia. discriminate.
  - split; [lia|]. split; [exact A|]. split; [congruence|]. split; auto.
Qed.
Print Assumptions C52_search.
Definition demo_ports (n : nat) : Z := nth n [50000; 50001; 50002; 50003]%Z 0%Z.
Example C52_search_ex : find_free_port_impl 3 "tcp" "127.0.0.1" demo_ports (fun n _ => n =? 2) =
    (["tcp://127.0.0.1:50000"; "tcp://127.0.0.1:50001"; "tcp://127.0.0.1:50002"], "50002") /\
  find_free_port_impl 2 "tcp" "127.0.0.1" demo_ports (fun n _ => n =? 2) = (["tcp://127.0.0.1:50000"; "tcp://127.0.0.1:50001"], "").
Proof. vm_compute. auto. Qed.
(** The public function: a port some try has bound, or an exception when all fail. *)
Theorem C52_free_port : forall max_tries ports binds,
  (forall port, find_free_port max_tries ports binds = Ok port -> exists j, j < max_tries /\ port = dec_of_Z (ports j) /\ binds j (get_end_point "tcp" "127.0.0.1" port) = true) /\
  ((exists e, find_free_port max_tries ports binds = Exn e) <-> forall i, i < max_tries -> binds i (get_end_point "tcp" "127.0.0.1" (dec_of_Z (ports i))) = false).
Proof.
  intros max_tries ports binds. unfold find_free_port. destruct (find_free_port_impl max_tries "tcp" "127.0.0.1" ports binds) as [tried p] eqn:E.
  destruct (C52_search _ _ _ _ _ _ _ E) as (L & _ & P & N). cbv zeta in *. destruct (String.eqb_spec p "") as [->|Hp].
  - split; [discriminate|]. split; [intros _; now apply N|eauto].
  - split.
    + intros port [= <-]. destruct (P Hp) as (j & J & -> & B & _). exists j. repeat split; auto. lia.
    + split; [intros (e & [=])|]. intros X. apply N in X. contradiction.
Qed.
Print Assumptions C52_free_port.
Example C52_free_port_ex : find_free_port 4 demo_ports (fun n _ => n =? 3) = Ok "50003" /\ find_free_port 3 demo_ports (fun n _ => n =? 3) = Exn (Std "zmq::error_t").
Proof. vm_compute. auto. Qed.

(** ** C53 *)
(** The first variable that is set, without one final slash. *)
Definition tmp_variables : list string := ["TMPDIR"; "TMP"; "TEMPDIR"; "TEMP"].
Theorem C53_temp : forall env,
  ((forall v, In v tmp_variables -> env v = None) -> get_temp_directory_path_impl env = Ok "/tmp") /\
  (forall pre v post p, tmp_variables = pre ++ v :: post -> (forall u, In u pre -> env u = None) ->
    (env v = Some (p +++ "/") -> get_temp_directory_path_impl env = Ok p) /\
    (env v = Some p -> p <> "" -> (forall q, p <> q +++ "/") -> get_temp_directory_path_impl env = Ok p) /\
    (env v = Some "" -> exists w, get_temp_directory_path_impl env = UB w)).
Proof.
  intros env. unfold tmp_variables. split.
  - intros H. unfold get_temp_directory_path_impl. rewrite !H; cbn; auto.
  - intros pre v post p E N. unfold get_temp_directory_path_impl.
    assert (forall r, (env v = r -> match env "TMPDIR" with Some p => remove_ending_separator p | None =>
      match env "TMP" with Some p => remove_ending_separator p | None =>
      match env "TEMPDIR" with Some p => remove_ending_separator p | None =>
      match env "TEMP" with Some p => remove_ending_separator p | None => Ok "/tmp" end end end end = match r with Some p => remove_ending_separator p | None =>
      match env "TMPDIR" with Some p => remove_ending_separator p | None =>
      match env "TMP" with Some p => remove_ending_separator p | None =>
      match env "TEMPDIR" with Some p => remove_ending_separator p | None =>
      match env "TEMP" with Some p => remove_ending_separator p | None => Ok "/tmp" end end end end end)) as X.
    { intros [q|]; auto. intros V.
      destruct pre as [|a pre]; cbn in E; injection E as E1 E; subst; [now rewrite V|]. rewrite (N "TMPDIR") by (cbn; auto).
      destruct pre as [|b pre]; cbn in E; injection E as E1 E; subst; [now rewrite V|]. rewrite (N "TMP") by (cbn; auto).
      destruct pre as [|c pre]; cbn in E; injection E as E1 E; subst; [now rewrite V|]. rewrite (N "TEMPDIR") by (cbn; auto).
      destruct pre as [|d pre]; cbn in E; injection E as E1 E; subst; [now rewrite V|]. destruct pre; discriminate. }
    split; [|split].
    + intros V. rewrite (X _ V). apply remove_sep_slash.
    + intros V Np S. rewrite (X _ V). now apply remove_sep_none.
    + intros V. rewrite (X _ V). cbn. eauto.
Qed.
Print Assumptions C53_temp.
Example C53_temp_ex : get_temp_directory_path_impl (fun v => if String.eqb v "TEMPDIR" then Some "/var/tmp/" else if String.eqb v "TEMP" then Some "/x" else None) = Ok "/var/tmp".
Proof.
  refine (proj1 (proj2 (C53_temp _) ["TMPDIR"; "TMP"] "TEMPDIR" ["TEMP"] "/var/tmp" eq_refl _) eq_refl). intros u [<-|[<-|[]]]; reflexivity.
Qed.
(** Never fails on an empty variable: refuted, the byte before the text is read. *)
Theorem C53_defined_refuted : ~ (forall env, exists p, get_temp_directory_path_impl env = Ok p).
Proof. intros H. destruct (H (fun _ => Some "")) as (p & P). discriminate. Qed.
(** The result tells whether the path exists afterwards; everything else is as before, except directories on the way. *)
Theorem C53_create : forall t path p t' b, is_tree t -> names path p -> create_directory path t = (t', b) ->
  (b = true <-> stat_ok t' path = true) /\ is_tree t' /\
  (forall q, t_at t' q = t_at t q \/ (t_at t q = None /\ t_at t' q = Some NDir /\ q <> [] /\ exists r, p = q ++ r)).
Proof.
  intros t path p t' b T N E. unfold create_directory in E.
  pose proof (create_stat (S (slen path)) path t ltac:(lia)) as S1. pose proof (create_tree (S (slen path)) path t T) as S2.
  pose proof (create_grown (S (slen path)) path t (proj1 T)) as (_ & S3). rewrite E in *. cbn [fst snd] in *. subst b.
  split; [reflexivity|]. split; auto. rewrite <- (names_components _ _ N). exact S3.
Qed.
Print Assumptions C53_create.
(** It succeeds if no plain file is in the way and missing directories may be created; then the path is a directory. *)
Theorem C53_create_success : forall t path p, is_tree t -> names path p -> path <> "" ->
  (forall q r, p = q ++ r -> t_at t q <> Some NFile) -> (forall q x r, p = q ++ x :: r -> t_at t (q ++ [x]) = None -> t_may t q = true) ->
  snd (create_directory path t) = true /\ t_at (fst (create_directory path t)) p = Some NDir.
Proof.
  intros t path p T N P F M. apply names_components in N. subst p. apply create_ok; auto.
Qed.
Print Assumptions C53_create_success.
(** Every path names a place. *)
Theorem C53_paths : forall path, exists p, names path p /\ forall p', names path p' -> p' = p.
Proof.
  intros path. destruct (names_total path) as (p & N). exists p. split; auto. intros p' N'. apply names_components in N, N'. congruence.
Qed.
Print Assumptions C53_paths.
Definition demo_tree : tree :=
  {| t_at := fun q => if list_eq_dec string_dec q [] then Some NDir else if list_eq_dec string_dec q ["tmp"] then Some NDir else if list_eq_dec string_dec q ["tmp"; "f"] then Some NFile else None;
     t_may := fun q => match q with "tmp" :: _ => true | _ => false end |}.
Lemma demo_is_tree : is_tree demo_tree.
Proof.
  split; [reflexivity|]. intros p x. cbn [t_at demo_tree]. destruct (list_eq_dec string_dec (p ++ [x]) []) as [E|_]; [now destruct p|].
  destruct (list_eq_dec string_dec (p ++ [x]) ["tmp"]) as [E|_].
  { change ["tmp"] with ([] ++ ["tmp"]) in E. apply app_inj_tail in E as [-> _]. reflexivity. }
  destruct (list_eq_dec string_dec (p ++ [x]) ["tmp"; "f"]) as [E|_]; [|congruence].
  change ["tmp"; "f"] with (["tmp"] ++ ["f"]) in E. apply app_inj_tail in E as [-> _]. reflexivity.
Qed.
Example C53_create_ex : let (t, b) := create_directory "/tmp//k_12/cells/" demo_tree in
  b = true /\ t_at t ["tmp"; "k_12"; "cells"] = Some NDir /\ t_at t ["tmp"; "k_12"] = Some NDir /\ t_at t ["tmp"; "f"] = Some NFile /\ t_at t ["tmp"; "cells"] = None.
Proof. vm_compute. auto 6. Qed.
Example C53_create_fails_ex : snd (create_directory "/usr/k" demo_tree) = false /\ snd (create_directory "/tmp/f/k" demo_tree) = false.
Proof. vm_compute. auto. Qed.
(** True does not mean that it is a directory. *)
Theorem C53_directory_refuted : ~ (forall t path p, is_tree t -> names path p -> snd (create_directory path t) = true -> t_at (fst (create_directory path t)) p = Some NDir).
Proof.
  intros H. destruct (names_total "/tmp/f") as (p & N). pose proof (names_components _ _ N) as E. vm_compute in E. subst p.
  specialize (H demo_tree "/tmp/f" _ demo_is_tree N eq_refl). vm_compute in H. discriminate.
Qed.

(** ** C54 *)
(** Each logger of the chain writes one entry, at its own level. *)
Theorem C54_chain : forall lg info header parent meta content t, type_of header t -> is_utf8_valid info = true ->
  jvalid header = true -> jvalid parent = true -> jvalid meta = true -> jvalid content = true ->
  exists es, log_message lg info header parent meta content = (es, Ok tt) /\ Forall2 (logged info t header parent meta content) (chain lg) es.
Proof. exact log_all. Qed.
Print Assumptions C54_chain.
(** The messages of the channels: the line names the channel and the first identity; the publisher: the topic. *)
Theorem C54_channels : forall lg m c nm t id ids, let b := m_base m in channel_name c nm -> m_ids m = id :: ids -> type_of (m_header b) t ->
  jvalid (m_header b) = true -> jvalid (m_parent_header b) = true -> jvalid (m_metadata b) = true -> jvalid (m_content b) = true ->
  exists es es',
  log_received lg m c = (es, Ok tt) /\
  Forall2 (logged ("XEUS: received message on " +++ nm +++ " - " +++ (if is_utf8_valid id then id else "invalid UTF8")) t (m_header b) (m_parent_header b) (m_metadata b) (m_content b)) (chain lg) es /\
  log_sent lg m c = (es', Ok tt) /\
  Forall2 (logged ("XEUS: sent message on " +++ nm +++ " - " +++ (if is_utf8_valid id then id else "invalid UTF8")) t (m_header b) (m_parent_header b) (m_metadata b) (m_content b)) (chain lg) es'.
Proof.
  intros lg m c nm t id ids b N I T H1 H2 H3 H4. assert (channel_str c = nm) as <- by (destruct N; reflexivity). unfold log_received, log_sent, log_channel. rewrite I. subst b.
  assert (forall what, is_utf8_valid what = true -> is_utf8_valid ("XEUS: " +++ what +++ " message on " +++ channel_str c +++ " - " +++ (if is_utf8_valid id then id else "invalid UTF8")) = true) as V.
  { intros what W. assert (forall a b, is_utf8_valid a = true -> is_utf8_valid b = true -> is_utf8_valid (a +++ b) = true) as A.
    { clear. intros a b. rewrite !is_utf8_valid_urun, !Nat.eqb_eq. intros A B. apply urun_app0; auto. }
    repeat apply A; auto; try reflexivity; [destruct c; reflexivity|]. destruct (is_utf8_valid id) eqn:E; auto. }
  destruct (log_all lg _ _ _ _ _ t T (V "received" eq_refl) H1 H2 H3 H4) as (es & E & F).
  destruct (log_all lg _ _ _ _ _ t T (V "sent" eq_refl) H1 H2 H3 H4) as (es' & E' & F').
  exists es, es'. destruct lg; [|auto]. clear - E F E' F'. cbn in E, E'. injection E as <-. injection E' as <-. auto.
Qed.
Print Assumptions C54_channels.
Example C54_channels_ex : log_sent (LLogger LMsgType SConsole LNolog) {| m_ids := ["peer"]; m_base := {| m_header := JObj [("msg_type", JStr "x")]; m_parent_header := JObj []; m_metadata := JObj []; m_content := JObj []; m_buffers := [] |} |} CControl =
  ([EConsole "XEUS: sent message on control - peer" (JObj [("msg_type", JStr "x")])], Ok tt).
Proof. vm_compute. reflexivity. Qed.
Theorem C54_iopub : forall lg m t, let b := m_pbase m in type_of (m_header b) t -> is_utf8_valid (m_topic m) = true ->
  jvalid (m_header b) = true -> jvalid (m_parent_header b) = true -> jvalid (m_metadata b) = true -> jvalid (m_content b) = true ->
  exists es, log_iopub lg m = (es, Ok tt) /\
  Forall2 (logged ("XEUS: sent message on iopub - " +++ m_topic m) t (m_header b) (m_parent_header b) (m_metadata b) (m_content b)) (chain lg) es.
Proof.
  intros lg m t b T V H1 H2 H3 H4. subst b. assert (is_utf8_valid ("XEUS: sent message on iopub - " +++ m_topic m) = true) as W.
  { rewrite is_utf8_valid_urun, Nat.eqb_eq in V |- *. apply urun_app0; [vm_compute; reflexivity|exact V]. }
  destruct (log_all lg _ _ _ _ _ t T W H1 H2 H3 H4) as (es & E & F). exists es. unfold log_iopub. destruct lg; [|auto]. clear - E F. cbn in E. now injection E as <-.
Qed.
Print Assumptions C54_iopub.
Definition demo_chain : logger := LLogger LMsgType SConsole (LLogger LFull (SFile "log.json") (LLogger LContent SConsole LNolog)).
Definition demo_header : json := JObj [("msg_id", JStr "7"); ("msg_type", JStr "execute_request")].
Definition demo_content : json := JObj [("code", JStr "1")].
Example C54_chain_ex : log_message demo_chain "XEUS: received" demo_header (JObj []) (JObj []) demo_content =
  ([EConsole "XEUS: received" (JObj [("msg_type", JStr "execute_request")]);
    EFile "log.json" (JObj [("info", JStr "XEUS: received");
      ("message", JObj [("content", demo_content); ("header", demo_header); ("metadata", JObj []); ("msg_type", JStr "execute_request"); ("parent_header", JObj [])])]);
    EConsole "XEUS: received" (JObj [("content", demo_content); ("msg_type", JStr "execute_request")])], Ok tt).
Proof. vm_compute. reflexivity. Qed.
Example C54_chain_hyp_ex : type_of demo_header "execute_request" /\ is_utf8_valid "XEUS: received" = true /\ jvalid demo_header = true /\ jvalid demo_content = true.
Proof. split; [eexists; split; [reflexivity|left; reflexivity]|vm_compute; auto]. Qed.
Example C54_iopub_ex : log_iopub demo_chain {| m_topic := "kernel_core.1.status"; m_pbase := {| m_header := demo_header; m_parent_header := JObj []; m_metadata := JObj []; m_content := demo_content; m_buffers := [] |} |} =
  log_message demo_chain "XEUS: sent message on iopub - kernel_core.1.status" demo_header (JObj []) (JObj []) demo_content /\ is_utf8_valid "kernel_core.1.status" = true.
Proof. vm_compute. auto. Qed.
(** No logger logs twice, and none before the one in front of it; an exception ends the chain. *)
Theorem C54_at_most_once : forall lg info header parent meta content t, type_of header t ->
  let (es, r) := log_message lg info header parent meta content in
  exists pre post, chain lg = pre ++ post /\ Forall2 (logged info t header parent meta content) pre es /\ (r = Ok tt <-> post = []).
Proof.
  intros lg info header parent meta content t T. pose proof (log_prefix lg info header parent meta content t T) as X.
  destruct (log_message lg info header parent meta content) as [es r]. exact (proj1 X).
Qed.
Print Assumptions C54_at_most_once.
(** Loggers are independent: refuted, the first one that cannot write its text silences those behind it. *)
Theorem C54_independent_refuted : ~ (forall l s next info header parent meta content t, type_of header t -> (exists es, log_message next info header parent meta content = (es, Ok tt)) ->
  let (es, _) := log_message (LLogger l s next) info header parent meta content in exists first, es = first ++ fst (log_message next info header parent meta content)).
Proof.
  intros H. specialize (H LFull SConsole (LLogger LMsgType SConsole LNolog) "i" demo_header (JObj []) (JObj []) (JStr (String (chr 255) "")) "execute_request").
  assert (exists first : list entry, [] = first ++ [EConsole "i" (JObj [("msg_type", JStr "execute_request")])]) as (first & E).
  { apply H; [eexists; split; [reflexivity|left; reflexivity]|]. eexists. vm_compute. reflexivity. }
  destruct first; discriminate.
Qed.
(** Nothing is logged by the default logger, nor by a kernel without a logger or without the variable XEUS_LOG. *)
Theorem C54_default : forall given set info header parent meta content m c p, given = None \/ set = false ->
  let lg := choose_logger given set in
  log_message lg info header parent meta content = ([], Ok tt) /\ log_received lg m c = ([], Ok tt) /\ log_sent lg m c = ([], Ok tt) /\ log_iopub lg p = ([], Ok tt).
Proof.
  intros given set info header parent meta content m c p H lg. subst lg. assert (choose_logger given set = LNolog) as ->; [|auto].
  destruct H as [->| ->]; [reflexivity|]. destruct given; reflexivity.
Qed.
Print Assumptions C54_default.
Example C54_default_ex : choose_logger (Some demo_chain) false = LNolog /\ choose_logger (Some demo_chain) true = demo_chain.
Proof. auto. Qed.

(** ** C55 *)
(** At any point of any sequence of calls: a registration succeeds exactly if no interpreter has been registered before; the current
    interpreter is the first one registered, or the mock. *)
Theorem C55_first_wins : forall (interp : Type) (mock : interp) pre post,
  (forall i, nth_error (run_registration mock None (pre ++ Register i :: post)) (List.length pre) =
     Some (RBool (match first_registered pre with Some _ => false | None => true end))) /\
  nth_error (run_registration mock None (pre ++ Get :: post)) (List.length pre) =
     Some (RInterp (match first_registered pre with Some i => i | None => mock end)).
Proof. intros interp mock pre post. split; [intros i; apply (run_app mock)|apply (run_app mock)]. Qed.
Print Assumptions C55_first_wins.
(** In other words: exactly the first registration of an interpreter returns true, and it is the current one from then on. *)
Theorem C55_exactly_first : forall (interp : Type) (mock : interp) pre i mid post,
  (forall o, In o pre -> o = Get \/ o = Register None) ->
  (forall j, nth_error (run_registration mock None (pre ++ Register (Some i) :: mid ++ Register (Some j) :: post)) (List.length (pre ++ Register (Some i) :: mid)) = Some (RBool false)) /\
  nth_error (run_registration mock None (pre ++ Register (Some i) :: post)) (List.length pre) = Some (RBool true) /\
  nth_error (run_registration mock None (pre ++ Register (Some i) :: mid ++ Get :: post)) (List.length (pre ++ Register (Some i) :: mid)) = Some (RInterp i) /\
  nth_error (run_registration mock None (pre ++ Get :: post)) (List.length pre) = Some (RInterp mock).
Proof.
  intros interp mock pre i mid post H.
  assert (first_registered pre = None) as E. { induction pre as [|o pre IH]; auto. destruct (H o (or_introl eq_refl)) as [->| ->]; apply IH; intros; apply H; right; auto. }
  assert (forall l, first_registered (pre ++ Register (Some i) :: l) = Some i) as F.
  { intros l. clear - H. induction pre as [|o pre IH]; auto. destruct (H o (or_introl eq_refl)) as [->| ->]; apply IH; intros; apply H; right; auto. }
  split; [|split; [|split]].
  - intros j. rewrite app_comm_cons, app_assoc. rewrite (proj1 (C55_first_wins _ mock _ _)), F. reflexivity.
  - rewrite (proj1 (C55_first_wins _ mock _ _)), E. reflexivity.
  - rewrite app_comm_cons, app_assoc. rewrite (proj2 (C55_first_wins _ mock _ _)), F. reflexivity.
  - rewrite (proj2 (C55_first_wins _ mock _ _)), E. reflexivity.
Qed.
Print Assumptions C55_exactly_first.
Example C55_ex : run_registration 0 None [Get; Register None; Register (Some 7); Register (Some 8); Get; Register None] =
  [RInterp 0; RBool true; RBool true; RBool false; RInterp 7; RBool false].
Proof. reflexivity. Qed.
(** Returning true does not mean registered: a null pointer is accepted and changes nothing. *)
Theorem C55_registered_refuted : ~ (forall i : option nat, forall l, nth_error (run_registration 0 None (l ++ [Register i; Get])) (List.length l) = Some (RBool true) ->
  nth_error (run_registration 0 None (l ++ [Register i; Get])) (S (List.length l)) <> Some (RInterp 0)).
Proof. intros H. apply (H None []); reflexivity. Qed.
(** The mock interpreter sends nothing; an interpreter with a publisher and a sender sends for each operation the message of the
    protocol. *)
Theorem C55_inert : (forall op, run_output mock_outputs op = []) /\
  (forall op, exists s, announces op s /\ run_output {| o_publisher := true; o_stdin := true |} op = [s]).
Proof. split; intros []; cbn; try reflexivity; eexists; (split; [constructor|reflexivity]). Qed.
Print Assumptions C55_inert.
Example C55_inert_ex : run_output mock_outputs (OStream "stdout" "x") = [] /\
  run_output {| o_publisher := true; o_stdin := false |} (OStream "stdout" "x") = [SPublished "stream" (JObj [("name", JStr "stdout"); ("text", JStr "x")])].
Proof. auto. Qed.

(** ** C56 *)
(** Different instants have different timestamps. *)
Theorem C56_injective : forall a b, (0 <= a)%Z -> (0 <= b)%Z -> iso8601 a = iso8601 b -> a = b.
Proof. exact iso_inj. Qed.
Print Assumptions C56_injective.
(** A timestamp denotes its instant exactly if the fraction has no leading zeros to lose; it always denotes an instant in the same second. *)
Theorem C56_denotes : forall t, (0 <= t)%Z -> (denotes (iso8601 t) = Some t <-> (t mod 1000000 = 0 \/ 100000 <= t mod 1000000)%Z).
Proof. exact iso_exact. Qed.
Print Assumptions C56_denotes.
Theorem C56_second : forall t, (0 <= t)%Z -> exists u, denotes (iso8601 t) = Some u /\ (u / 1000000 = t / 1000000)%Z.
Proof. exact iso_second. Qed.
Print Assumptions C56_second.
Theorem C56_denotes_refuted : ~ (forall t, (0 <= t)%Z -> denotes (iso8601 t) = Some t).
Proof. intros H. specialize (H 5%Z ltac:(lia)). vm_compute in H. discriminate. Qed.
(** The order of instants is lost as well. *)
Theorem C56_order_refuted : ~ (forall a b u v, (0 <= a < b)%Z -> denotes (iso8601 a) = Some u -> denotes (iso8601 b) = Some v -> (u < v)%Z).
Proof. intros H. specialize (H 5%Z 100000%Z 500000%Z 100000%Z ltac:(lia) eq_refl eq_refl). lia. Qed.
Example C56_ex : iso8601 1709211845123456 = "2024-02-29T13:04:05.123456Z" /\ denotes "2024-02-29T13:04:05.123456Z" = Some 1709211845123456%Z /\
  iso8601 5 = "1970-01-01T00:00:00.5Z" /\ denotes "1970-01-01T00:00:00.5Z" = Some 500000%Z.
Proof. vm_compute. auto. Qed.

(** ** C66 *)
(** Files of different cells have different names: by execution count, by hash; different processes have different directories. *)
Theorem C66_cell_files :
  (forall prefix ext m n, m <> n -> cell_file_count prefix m ext <> cell_file_count prefix n ext) /\
  (forall hash prefix suffix a b, cell_file_hash hash prefix a suffix = cell_file_hash hash prefix b suffix <-> hash a = hash b) /\
  (forall tmp name p q, p <> q -> get_tmp_prefix tmp name p <> get_tmp_prefix tmp name q).
Proof.
  unfold cell_file_count, cell_file_hash, get_tmp_prefix. repeat split.
  - intros prefix ext m n N H. apply N. do 2 apply sapp_inv_head in H. rewrite <- !sapp_assoc in H. do 2 apply sapp_inv_tail in H. now apply dec_of_Z_inj.
  - intros H. apply sapp_inv_head in H. apply sapp_inv_tail in H. now apply dec_of_N_inj.
  - now intros ->.
  - intros tmp name p q N H. apply N. do 4 apply sapp_inv_head in H. apply sapp_inv_tail in H. now apply dec_of_Z_inj.
Qed.
Print Assumptions C66_cell_files.
Example C66_ex : cell_file_count "/tmp/x_12" 3 ".cpp" = "/tmp/x_12/[3].cpp" /\ get_tmp_prefix "/tmp" "x" 12 = "/tmp/x_12/" /\ cell_file_hash (fun _ => 99%N) "/tmp/x_12/" "int i;" ".cpp" = "/tmp/x_12/99.cpp".
Proof. vm_compute. auto. Qed.
