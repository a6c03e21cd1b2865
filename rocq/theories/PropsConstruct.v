(** Construction of a kernel: C96. *)
From Verif Require Import Base BaseFacts Auth JsonText Host HostProofs Construct ConstructSpec ConstructProofs.

(** C96. On tcp, each socket that is bound is reached with the port in the configuration of the constructed kernel; a socket is
    left unbound only if no port was asked for and a hundred ports in a row were refused, and then the configuration has no port. *)
Theorem C96_ports : forall H x c calls b k, tcp_binds H -> g_transport c = "tcp" -> init H x c = (calls, b, Ok k) ->
  forall ch, no_colon (port_of ch c) ->
  reachable (port_of ch c) (port_of ch (n_config k)) (n_sockets k ch) \/
  (n_sockets k ch = None /\ port_of ch c = "" /\ port_of ch (n_config k) = "" /\ gave_up H "tcp" (g_ip c)).
Proof.
  intros H x c calls b k T Tr I ch NC. apply init_ok in I as (c1 & d & K & _ & S & Up & _). apply (keyed H) in K as (K1 & K2 & _ & K3 & _).
  apply make_server_spec in S as (S & _); [|reflexivity]. destruct (S ch) as (b1 & b2 & M). apply init_socket_spec in M. apply update_config_spec in Up as (_ & _ & _ & _ & Up). specialize (Up ch).
  rewrite K1, K2, K3, Tr in M. destruct (n_sockets k ch) as [e|] eqn:E.
  - left. destruct M as (_ & p & B & P1 & P2). rewrite end_point_tcp in B.
    assert (no_colon p) as Np by (destruct (String.eqb_spec (port_of ch c) "") as [Z|Z]; [destruct (P2 Z) as (z & ->); apply dec_no_colon|now rewrite (P1 Z)]).
    destruct (T _ _ _ _ B Np) as (address & number & -> & N1 & N2 & N3). assert (port_of ch (n_config k) = number) as Q.
    { unfold port_read in Up. assert (Le : slen (get_end_point "tcp" address number) <= 31).
      { destruct (Nat.le_gt_cases (slen (get_end_point "tcp" address number)) 31) as [L|L]; [exact L|]. apply long_endpoint in L. rewrite end_point_tcp in L. rewrite L in Up. discriminate. }
      rewrite <- end_point_tcp, tcp_port in Up by auto. now injection Up. }
    exists address. rewrite Q. repeat split; auto. intros n Hn A. destruct (String.eqb_spec (port_of ch c) "") as [Z|Z].
    + exfalso. rewrite Z in A. symmetry in A. now apply dec_nonempty in A.
    + specialize (P1 Z). rewrite (N3 n Hn) by congruence. auto.
  - right. destruct M as (_ & P & G). repeat split; auto. cbn in Up. now injection Up.
Qed.
Print Assumptions C96_ports.

(** C96. No two channels share an end point. *)
Theorem C96_distinct : forall H x c calls b k, exclusive H -> init H x c = (calls, b, Ok k) ->
  forall ch ch' e, n_sockets k ch = Some e -> n_sockets k ch' = Some e -> ch = ch'.
Proof.
  intros H x c calls b k X I. apply init_ok in I as (c1 & d & _ & _ & S & _). apply make_server_spec in S as (_ & S); [|reflexivity]. destruct (S X) as (_ & A). exact A.
Qed.
Print Assumptions C96_distinct.

(** C96. The key of the configuration is the one the kernel signs and verifies with; it is the given one, or a new identifier if
    there was none. Transport, address and scheme are those given. *)
Theorem C96_key : forall H x c calls b k, init H x c = (calls, b, Ok k) ->
  let c' := n_config k in
  make_xauthentication (g_scheme c) (g_key c') = Ok (n_auth k) /\ g_scheme c' = g_scheme c /\ g_transport c' = g_transport c /\ g_ip c' = g_ip c /\
  (g_key c <> "" -> g_key c' = g_key c) /\ (g_key c = "" -> g_key c' = h_guid H 2).
Proof.
  intros H x c calls b k I. apply init_ok in I as (c1 & d & K & A & _ & Up & _). apply (keyed H) in K as (K1 & K2 & K4 & _ & K5 & K6). apply update_config_spec in Up as (U1 & U2 & U3 & U4 & _).
  cbv zeta. rewrite U1, U2, U3, U4. rewrite K4 in A. repeat split; auto; congruence.
Qed.
Print Assumptions C96_key.

(** C96. The server is made first, then the debugger, which is given the configuration of the constructed kernel and the session
    of the core; the interpreter is configured last, when it knows the messenger and the history. *)
Theorem C96_order : forall H x c calls b k, init H x c = (calls, b, Ok k) ->
  exists c1 debugger, x_debugger x (n_config k) (n_session k) = Ok debugger /\ g_key c1 = g_key (n_config k) /\ (forall ch, port_of ch c1 = port_of ch c) /\
  calls = ([CServer c1; CDebugger (n_config k) (n_session k); CCore (n_session k) (n_auth k)] ++ (if debugger then [CMessenger true] else []) ++
           [CMessenger false; CHistory; CConfigure])%list.
Proof.
  intros H x c calls b k I. apply init_ok in I as (c1 & d & K & _ & _ & Up & Db & _ & _ & _ & _ & ->). exists c1, d. apply (keyed H) in K as (_ & _ & _ & K3 & _).
  apply update_config_spec in Up as (_ & _ & _ & U4 & _). repeat split; auto.
Qed.
Print Assumptions C96_order.

(** C96. Messages are logged only if a logger was given and XEUS_LOG is set. *)
Theorem C96_logs : forall H x c calls b k, init H x c = (calls, b, Ok k) -> (n_logs k = true <-> x_logger x = true /\ x_env x = true).
Proof. intros H x c calls b k I. apply init_ok in I as (c1 & d & _ & _ & _ & _ & _ & _ & -> & _). apply andb_true_iff. Qed.
Print Assumptions C96_logs.

(** C96. With an unknown signature scheme nothing is bound and nothing is built. *)
Theorem C96_scheme : forall H x c, g_scheme c <> "none" -> ~ In (g_scheme c) schemes ->
  exists e, init H x c = ([], {| b_draws := 0; b_bound := [] |}, Exn e).
Proof.
  intros H x c N1 N2. unfold init. set (c1 := if String.eqb (g_key c) "" then _ else c). assert (g_scheme c1 = g_scheme c) as E by (unfold c1; now destruct (String.eqb _ _)).
  cbv zeta. unfold make_xauthentication. rewrite E. destruct (String.eqb_spec (g_scheme c) "none"); [contradiction|].
  destruct (existsb (String.eqb (g_scheme c)) schemes) eqn:Ex; [|eauto]. apply existsb_exists in Ex as (s & I & Q). apply String.eqb_eq in Q. subst s. contradiction.
Qed.
Print Assumptions C96_scheme.

(** C96. A kernel constructed without a configuration listens on the loopback interface alone, on ports that were drawn, and signs with a
    key that nobody else was given. *)
Theorem C96_default : forall H x calls b k, init H x default_config = (calls, b, Ok k) ->
  n_auth k = HmacAuth "hmac-sha256" (h_guid H 2) /\ g_scheme (n_config k) = "hmac-sha256" /\ g_key (n_config k) = h_guid H 2 /\
  g_transport (n_config k) = "tcp" /\ g_ip (n_config k) = "127.0.0.1" /\
  forall ch e, n_sockets k ch = Some e -> exists bound port, h_bind H bound ("tcp://127.0.0.1:" +++ dec_of_Z port) = Some e.
Proof.
  intros H x calls b k I. destruct (C96_key H x _ calls b k I) as (K1 & K2 & K3 & K4 & _ & K6). specialize (K6 eq_refl). rewrite K6 in K1. cbn in K2, K3, K4.
  split; [|split; [exact K2|split; [exact K6|split; [exact K3|split; [exact K4|]]]]].
  - change (make_xauthentication (g_scheme default_config) (h_guid H 2)) with (Ok (HmacAuth "hmac-sha256" (h_guid H 2))) in K1. congruence.
  - intros ch e Hs. apply init_ok in I as (c1 & d & -> & _ & S & _). apply make_server_spec in S as (S & _); [|reflexivity]. destruct (S ch) as (b1 & b2 & M). rewrite Hs in M.
    apply init_socket_spec in M. destruct M as (_ & p & B & _ & P). destruct P as [z ->]; [destruct ch; reflexivity|]. exists (b_bound b1), z. exact B.
Qed.
Print Assumptions C96_default.

(** ** Machines *)
(** A machine on which every end point with a port can be bound once, and which draws 50000, 50000, 50001, 50001, ... *)
Definition free_host : host := {|
  h_draw n := (50000 + Z.of_nat (n / 2))%Z; h_guid n := "guid-" +++ dec_of_nat n;
  h_bind bound e := if (existsb (String.eqb e) bound || match after_last ":" e with Some "" => true | _ => false end)%bool then None else Some e |}.
(** One without a free port. *)
Definition full_host : host := {| h_draw n := 50000%Z; h_guid n := "guid-" +++ dec_of_nat n; h_bind _ _ := None |}.
Definition plain_args (split : bool) : args := {| x_split := split; x_logger := true; x_env := false; x_debugger _ _ := Ok true; x_configure := Ok tt |}.
Definition given_ports : config :=
  {| g_transport := "tcp"; g_ip := "127.0.0.1"; g_control := "50160"; g_shell := "57503"; g_stdin := ""; g_iopub := "40885"; g_hb := "42540";
     g_scheme := "hmac-sha256"; g_key := "a0436f6c" |}.
Lemma free_binds : tcp_binds free_host /\ exclusive free_host.
Proof.
  split.
  - intros bound ip port r B N. cbn in B. destruct (existsb _ bound); [discriminate|]. cbn [orb] in B. exists ip, port.
    change (String "t" (String "c" (String "p" (String ":" (String "/" (String "/" (ip +++ String ":" port))))))) with (("tcp://" +++ ip) +++ String ":" port) in B.
    rewrite after_last_app in B by (intros u v; exact (N u v)). destruct port as [|a p]; [discriminate|]. injection B as <-. repeat split; auto. discriminate.
  - intros bound e r B I. cbn in B. destruct (existsb (String.eqb e) bound) eqn:X; [discriminate|]. cbn [orb] in B.
    assert (r = e) as -> by (destruct (after_last ":" e) as [[|]|]; congruence). assert (existsb (String.eqb e) bound = true) as Y; [|congruence].
    apply existsb_exists. exists e. split; auto. apply String.eqb_refl.
Qed.
Lemma full_binds : tcp_binds full_host /\ exclusive full_host.
Proof. split; intros ? *; discriminate. Qed.
Definition ports (c : config) : list string := map (fun ch => port_of ch c) [Control; Shell; Stdin; Iopub; Hb].
Definition ends (s : sockets) : list (option string) := map s [Control; Shell; Stdin; Iopub; Hb].
(** All ports are drawn; one port is drawn; both servers. *)
Example C96_ports_ex :
  (exists calls b k, init free_host (plain_args false) default_config = (calls, b, Ok k) /\ ports (n_config k) = ["50003"; "50002"; "50004"; "50000"; "50001"] /\
    n_sockets k Iopub = Some "tcp://127.0.0.1:50000" /\ g_key (n_config k) = "guid-2" /\ n_auth k = HmacAuth "hmac-sha256" "guid-2" /\ b_draws b = 9) /\
  (exists calls b k, init free_host (plain_args true) given_ports = (calls, b, Ok k) /\ ports (n_config k) = ["50160"; "57503"; "50000"; "40885"; "42540"] /\
    g_key (n_config k) = "a0436f6c" /\ n_logs k = false /\ List.length calls = 7) /\
  tcp_binds free_host /\ exclusive free_host.
Proof.
  split; [|split; [|exact free_binds]]; (eexists _, _, _; split; [vm_compute; reflexivity|]; vm_compute; repeat split; reflexivity).
Qed.
(** A port asked for twice, an unknown scheme. *)
Example C96_scheme_ex :
  (exists calls b, init free_host (plain_args false)
    {| g_transport := "tcp"; g_ip := "127.0.0.1"; g_control := "50160"; g_shell := "50160"; g_stdin := ""; g_iopub := ""; g_hb := ""; g_scheme := "hmac-sha256"; g_key := "" |} =
    (calls, b, Exn (Std "zmq::error_t"))) /\
  (exists e, init free_host (plain_args false)
    {| g_transport := "tcp"; g_ip := "127.0.0.1"; g_control := ""; g_shell := ""; g_stdin := ""; g_iopub := ""; g_hb := ""; g_scheme := ""; g_key := "" |} =
    ([], {| b_draws := 0; b_bound := [] |}, Exn e)).
Proof. split; [eexists _, _; vm_compute; reflexivity|]. apply C96_scheme; [discriminate|]. vm_compute. intuition discriminate. Qed.

(** C96. Not every kernel that is constructed can be reached: without a free port the constructor succeeds, with sockets that are not
    bound. *)
Theorem C96_bound_refuted : ~ (forall H x c calls b k, tcp_binds H -> exclusive H -> g_transport c = "tcp" -> init H x c = (calls, b, Ok k) ->
  forall ch, n_sockets k ch <> None).
Proof.
  intros R. destruct (init full_host (plain_args false) default_config) as [[calls b] [k| |]] eqn:I; [|vm_compute in I; discriminate|vm_compute in I; discriminate].
  apply (R full_host (plain_args false) default_config calls b k (proj1 full_binds) (proj2 full_binds) eq_refl I Shell). vm_compute in I. injection I as _ _ <-. reflexivity.
Qed.
Print Assumptions C96_bound_refuted.
(** C96. For another transport the configuration of the constructed kernel does not name the end points. *)
Theorem C96_transport_refuted : ~ (forall H x c calls b k, exclusive H -> init H x c = (calls, b, Ok k) ->
  forall ch e, n_sockets k ch = Some e -> e = get_end_point (g_transport (n_config k)) (g_ip (n_config k)) (port_of ch (n_config k))).
Proof.
  intros R. set (c := {| g_transport := "ipc"; g_ip := "k"; g_control := "1"; g_shell := "2"; g_stdin := "3"; g_iopub := "4"; g_hb := "5"; g_scheme := "none"; g_key := "" |}).
  destruct (init free_host (plain_args false) c) as [[calls b] [k| |]] eqn:I; [|vm_compute in I; discriminate|vm_compute in I; discriminate].
  specialize (R _ _ _ _ _ _ (proj2 free_binds) I Shell "ipc://k-2"). vm_compute in I. injection I as _ _ <-. specialize (R eq_refl). vm_compute in R. discriminate.
Qed.
Print Assumptions C96_transport_refuted.
