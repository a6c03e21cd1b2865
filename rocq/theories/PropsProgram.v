(** C108: the programs that come with xeus, from the command line to the frames on the sockets. *)
From Verif Require Import Base BaseFacts Json JsonText Utf8 Utf8Proofs Hex Auth Message MessageProofs WireSpec WireLemmas History HistoryProofs Comm Tree Kernel KernelSpec KernelProofs KernelRun KernelDemo
  Server ServerSpec ServerProofs ServerDemo ServerExec SequentialSpec LiveSpec Live LiveDemo Heard Client Shipped ShippedSpec ShippedProofs Split Host HostSpec HostProofs Construct ConstructSpec ConstructProofs
  Program ProgramSpec ProgramProofs PropsHost PropsConstruct PropsLive PropsShipped.

(** On a connection file of the protocol each of the four programs reaches the loop of its server, with its five sockets where the file says
    and a first message that the reader of the file can verify, with the name of the user. *)
Theorem C108_serves : forall C p argv c, launched C argv c ->
  exists v user session, main C p argv = Ok v /\ user_is C user /\ (forall ch, n_sockets (v_made v) ch = Some (address c ch)) /\ tells (p_crypto C) c user session starting (v_start v).
Proof.
  intros C p argv c [(f & text & doc & H1 & H2 & H3 & H4) H5 H6 H7 H8].
  destruct (main_serves C p argv f text doc c H1 H2 H3 H4 H5 H6 H7 H8) as (v & M & S & SH & EU & Hc & Hu & _ & Ha & R & St).
  exists v, (get_user_name C), (e_session_id (v_env v)). split; [exact M|]. split; [apply user_name_is|]. split; [exact S|]. rewrite St, <- Hc, <- Hu. eapply start_tells; eassumption.
Qed.
Print Assumptions C108_serves.

(** It accepts what is signed with the key of the file, as what it says, and rejects other signatures of that length. *)
Theorem C108_reads : forall C p argv c, launched C argv c -> forall v, main C p argv = Ok v ->
  (forall q w, asks (p_crypto C) c q w -> accepted (v_env v) w q) /\ (forall w, forged (p_crypto C) c w -> rejected (v_env v) w).
Proof.
  intros C p argv c [(f & text & doc & H1 & H2 & H3 & H4) H5 H6 H7 H8] v M.
  destruct (main_serves C p argv f text doc c H1 H2 H3 H4 H5 H6 H7 H8) as (v' & M' & S & SH & EU & Hc & Hu & _ & Ha & R & St). rewrite M in M'. injection M' as <-.
  rewrite <- Hc. split; intros *; [now apply asks_accepted|now apply forged_rejected].
Qed.
Print Assumptions C108_reads.

(** The programs with the default server (example/src/main.cpp, test/main.cpp): whatever arrives, as long as the messages handed over are
    covered by [session], the frames published and the frames sent through shell and control socket are those [session] says, in this
    order, up to a point - to the end when the main thread is between two messages -, signed for the reader of the file. *)
Theorem C108_client : forall C p argv c, launched C argv c -> plain p -> forall v, main C p argv = Ok v ->
  forall ls s, drun (fun ch w => dispatch (v_env v) w ch) (d_init (v_kernel v) (v_start v)) ls s ->
  forall gs y, ShippedSpec.session (manner_of p) (targets_of p) (v_env v) fresh (handed ls) gs y ->
  place_of (d_pc s) <> Failed /\
  exists user session said later, user_is C user /\ gs = (said ++ later)%list /\ (place_of (d_pc s) = Between -> later = []) /\
    Forall2 (tells (p_crypto C) c user session) (starting :: on_iopub said) (v_start v :: published ls) /\
    forall ch, Forall2 (tells (p_crypto C) c user session) (on_socket ch said) (sent_through ch ls).
Proof.
  intros C p argv c [(f & text & doc & H1 & H2 & H3 & H4) H5 H6 H7 H8] Hpl v M ls s H gs y S.
  destruct (main_serves C p argv f text doc c H1 H2 H3 H4 H5 H6 H7 H8) as (v' & M' & So & SH & EU & Hc & Hu & He & Ha & R & St). rewrite M in M'. injection M' as <-. assert (Hsp : splits p = false) by (destruct Hpl as [->| ->]; reflexivity). rewrite Hsp in He.
  destruct (C107_session _ _ _ SH EU He _ _ _ _ _ R H gs y S) as (A & _ & [later P] & B). split; [exact A|].
  pose proof (run_proper _ _ _ SH _ _ _ _ H) as Hp.
  exists (get_user_name C), (e_session_id (v_env v)), (gists (happened ls)), later. rewrite <- Hc, <- Hu. split; [rewrite Hu; apply user_name_is|]. split; [exact P|]. split; [|split].
  - intros Hb. destruct (B Hb) as [Q _]. rewrite Q in P. apply (f_equal (@List.length _)) in P. rewrite app_length in P. destruct later; [reflexivity|cbn in P; lia].
  - constructor; [rewrite St; eapply start_tells; eassumption|]. rewrite published_pubs. eapply published_tells; eassumption.
  - intros ch. eapply sent_tells; eassumption.
Qed.
Print Assumptions C108_client.

(** With fair main and publisher threads: everything that arrives is taken and answered, and all that is said about it reaches the publication
    socket, unless the kernel is told to stop. *)
Theorem C108_eventually : forall C p argv c, launched C argv c -> plain p -> forall v, main C p argv = Ok v ->
  let listener := fun ch w => dispatch (v_env v) w ch in
  forall sigma lab, executes (acts listener) sigma lab -> sigma 0 = d_init (v_kernel v) (v_start v) ->
  just (acts listener) sigma lab AMain -> just (acts listener) sigma lab APublisher ->
  (forall n, exists gs y, ShippedSpec.session (manner_of p) (targets_of p) (v_env v) fresh (handed (observed lab n)) gs y) ->
  forall n, exists m m', n <= m <= m' /\
    (In StopRequest (observed lab m') \/
     prefix (arrived SHELL (observed lab n)) (shell_taken (observed lab m)) /\ prefix (arrived CONTROL (observed lab n)) (control_taken (observed lab m)) /\
     exists user session gs y out, user_is C user /\ ShippedSpec.session (manner_of p) (targets_of p) (v_env v) fresh (handed (observed lab m)) gs y /\
       prefix out (f_out (m_pub (d_mem (sigma m')))) /\ Forall2 (tells (p_crypto C) c user session) (starting :: on_iopub gs) out /\
       forall ch, Forall2 (tells (p_crypto C) c user session) (on_socket ch gs) (sent_through ch (observed lab m))).
Proof.
  intros C p argv c L Hpl v M listener sigma lab Hex H0 HM HP Hcov n.
  pose proof L as [(f & text & doc & H1 & H2 & H3 & H4) H5 H6 H7 H8].
  destruct (main_serves C p argv f text doc c H1 H2 H3 H4 H5 H6 H7 H8) as (v' & M' & So & SH & EU & Hc & Hu & He & Ha & R & St). rewrite M in M'. injection M' as <-. assert (Hsp : splits p = false) by (destruct Hpl as [->| ->]; reflexivity). rewrite Hsp in He.
  destruct (C107_eventually _ _ _ SH EU He _ _ _ _ _ R Hex H0 HM Hcov n) as (m & Lm & D).
  destruct (C76_published _ _ _ _ _ _ Hex H0 HP m) as (m' & Lm' & D'). exists m, m'. split; [lia|].
  destruct D as [D|(P1 & P2 & gs & y & S & G & _)]; [left; destruct (obs_prefix lab m m' Lm') as [z ->]; apply in_or_app; now left|].
  pose proof (fun i => obs_run _ _ _ sigma lab Hex H0 i) as Hrun.
  destruct D' as [D'|Hcl].
  2: { left. destruct (closing_at _ _ _ sigma lab Hex H0 m' Hcl) as [Q|Q]; [|now apply (proj1 (stop_at _ _ _ sigma lab Hex H0 m'))].
       exfalso. destruct (Hcov m') as (gs' & y' & S'). destruct (C107_session _ _ _ SH EU He _ _ _ _ _ R (Hrun m') gs' y' S') as [A _]. apply A. now rewrite Q. }
  right. split; [exact P1|]. split; [exact P2|]. pose proof (run_proper _ _ _ SH _ _ _ _ (Hrun m)) as Hp.
  exists (get_user_name C), (e_session_id (v_env v)), gs, y, (v_start v :: published (observed lab m)). rewrite <- Hc, <- Hu. split; [rewrite Hu; apply user_name_is|]. split; [exact S|]. split; [exact D'|].
  rewrite <- G. split; [constructor; [rewrite St; eapply start_tells; eassumption|rewrite published_pubs; eapply published_tells; eassumption]|].
  intros ch. eapply sent_tells; eassumption.
Qed.
Print Assumptions C108_eventually.

(** ** When it does not come to this *)
(** With one argument: undefined, the missing third is read. *)
Theorem C108_arguments_refuted : forall C p program x, exists why, main C p [program; x] = UB why.
Proof. intros. eexists. reflexivity. Qed.
Print Assumptions C108_arguments_refuted.
(** Without the file, and with a file whose scheme is neither "none" nor known: an exception ends the process. *)
Theorem C108_ends : forall C p argv f, command argv f ->
  (p_files C f = None -> exists e, main C p argv = Exn e) /\
  (forall text doc c, p_files C f = Some text -> parse text = Ok doc -> declares doc c -> g_scheme c <> "none" -> ~ In (g_scheme c) schemes -> exists e, main C p argv = Exn e).
Proof.
  intros C p argv f Hc. unfold main. rewrite (command_file _ _ Hc). cbn [bind]. split.
  - intros ->. eexists. reflexivity.
  - intros text doc c -> Hd Hdc N1 N2. rewrite (declares_loads _ _ _ Hd Hdc). cbn [bind]. destruct (C96_scheme (p_host C) (args_of p) c N1 N2) as [e ->]. eexists. reflexivity.
Qed.
Print Assumptions C108_ends.
(** A user name that is not UTF-8 (the kernel reads it as bytes from the password file or the environment): the start message cannot be
    written, and an exception ends the process. *)
Definition shop_doc : json := put_field "key" (JStr "secret") demo_doc.
Definition shop_config : config :=
  {| g_transport := "tcp"; g_ip := "127.0.0.1"; g_control := "50160"; g_shell := "57503"; g_stdin := "52597"; g_iopub := "40885"; g_hb := "42540";
     g_scheme := "hmac-sha256"; g_key := "secret" |}.
Definition shop (user : string) : computer := {|
  p_host := {| h_draw := h_draw free_host; h_guid := ticks; h_bind := h_bind free_host |};
  p_files := fun f => if String.eqb f "kernel.json" then Some (text_of shop_doc) else None;
  p_entry := None; p_user := Some user; p_crypto := toy; p_now := fun _ => "2024-01-01T00:00:00Z"; p_regex := fun _ => Ok (fun _ => false);
  p_stdin := stdin_msg; p_indet := IndetUB; p_long := fun s => Ok s |}.
Definition shop_argv : list string := ["xecho"; "-f"; "kernel.json"].
Lemma shop_file user : exists f text doc, command shop_argv f /\ p_files (shop user) f = Some text /\ parse text = Ok doc /\ declares doc shop_config.
Proof.
  exists "kernel.json", (text_of shop_doc), shop_doc. split; [constructor|]. split; [reflexivity|]. split; [vm_compute; reflexivity|].
  unfold declares, str_field, port_field. repeat split; try (vm_compute; reflexivity); try discriminate; eexists; repeat split; try (vm_compute; reflexivity); vm_compute; discriminate.
Qed.
Lemma shop_available user : available (shop user) shop_config.
Proof.
  constructor.
  - intros bound ch N. cbn [shop p_host h_bind free_host]. destruct (existsb (String.eqb (address shop_config ch)) bound) eqn:X.
    + apply existsb_exists in X as (e & I & Q). apply String.eqb_eq in Q. subst e. contradiction.
    + destruct ch; reflexivity.
  - intros [] []; vm_compute; congruence.
  - intros []; vm_compute; lia.
Qed.
Theorem C108_user_refuted : exists C argv c, shared c /\ g_transport c = "tcp" /\ available C c /\
  (exists f text doc, command argv f /\ p_files C f = Some text /\ parse text = Ok doc /\ declares doc c) /\
  forall p, exists e, main C p argv = Exn e.
Proof.
  exists (shop (String "255" "")), shop_argv, shop_config. split; [right; split; [vm_compute; auto 10|discriminate]|]. split; [reflexivity|]. split; [apply shop_available|]. split; [apply shop_file|].
  intros []; eexists; vm_compute; reflexivity.
Qed.
Print Assumptions C108_user_refuted.

(** ** Examples *)
Lemma shop_launched : launched (shop "me") shop_argv shop_config.
Proof.
  constructor; [apply shop_file|right; split; [vm_compute; auto 10|discriminate]|reflexivity|apply shop_available|].
  constructor; [discriminate|intros s [= <-]; apply utf8_lit; reflexivity|apply ticks_utf8|intros n; apply utf8_lit; reflexivity].
Qed.
Example C108_serves_ex : launched (shop "me") shop_argv shop_config /\
  exists v, main (shop "me") PTest shop_argv = Ok v /\ n_sockets (v_made v) Iopub = Some "tcp://127.0.0.1:40885" /\ nth 0 (v_start v) "" = "kernel_core..status" /\ e_auth (v_env v) = HmacAuth "hmac-sha256" "secret".
Proof. split; [exact shop_launched|]. eexists. split; [vm_compute; reflexivity|]. repeat split. Qed.
Definition head_of (q : xmessage) : string := text_of (m_header (m_base q)).
Lemma asks_wire q : In q [hello; bye] -> asks (p_crypto (shop "me")) shop_config q (wire_of q).
Proof.
  intros [<-|[<-|[]]]; [exists (head_of hello), "{}", "{}", (text_of (m_content (m_base hello)))|exists (head_of bye), "{}", "{}", (text_of (m_content (m_base bye)))];
    (split; [vm_compute; reflexivity|]; split; [vm_compute; intuition discriminate|]; repeat split; vm_compute; reflexivity).
Qed.
Example C108_reads_ex : asks (p_crypto (shop "me")) shop_config hello (wire_of hello) /\
  forged (p_crypto (shop "me")) shop_config (firstn 2 (wire_of hello) ++ "00000000" :: skipn 3 (wire_of hello)).
Proof.
  split; [apply asks_wire; now left|]. split; [discriminate|].
  exists ["peer"], "00000000", (head_of hello), "{}", "{}", (text_of (m_content (m_base hello))), []. split; [vm_compute; reflexivity|]. split; [vm_compute; intuition discriminate|].
  split; [vm_compute; lia|]. intros rest. vm_compute. discriminate.
Qed.
(** A cell and a shutdown, sent to the example kernel by somebody who has read the file. *)
Definition shop_serving : serving :=
  match main (shop "me") PExample shop_argv with
  | Ok v => v
  | _ => {| v_env := example_env; v_kernel := example_start; v_start := []; v_made := {| n_config := shop_config; n_auth := NoAuth; n_sockets := fun _ => None; n_kernel := ""; n_session := ""; n_logs := false |} |}
  end.
Lemma shop_serves : main (shop "me") PExample shop_argv = Ok shop_serving.
Proof. unfold shop_serving. destruct (C108_serves (shop "me") PExample shop_argv shop_config shop_launched) as (v & _ & _ & M & _). now rewrite M. Qed.
Definition shop_gs : list gist := (firstn 6 example_gs ++ skipn 11 example_gs)%list.
Lemma shop_session : ShippedSpec.session example_manner (fun _ => False) (v_env shop_serving) fresh [(SHELL, wire_of hello); (CONTROL, wire_of bye)] shop_gs
  {| y_count := 1; y_history := [hello_entry]; y_parent := with_parent CONTROL (m_header (m_base bye)) (with_parent SHELL (m_header (m_base hello)) (y_parent fresh)) |}.
Proof.
  destruct (C108_reads _ _ _ _ shop_launched _ shop_serves) as [A _].
  assert (A1 := A _ _ (asks_wire hello (or_introl eq_refl))). assert (A2 := A _ _ (asks_wire bye (or_intror (or_introl eq_refl)))). clear A.
  generalize dependent (v_env shop_serving). intros E A1 A2.
  refine (se_snoc _ _ _ _ [_] (firstn 6 shop_gs) _ _ _ _ _ (se_snoc _ _ _ _ [] [] _ _ _ _ _ (se_nil _ _ _ _) _) _).
  - refine (re_done _ _ E _ _ _ hello "execute_request" (firstn 4 (skipn 1 shop_gs)) _ _ A1 _ _); [eexists; split; reflexivity|].
    exact (do_execute _ _ _ SHELL ["peer"] _ 0 [] _ hello_params 1 hello_reads eq_refl ltac:(unfold int_max; lia)).
  - refine (re_done _ _ E _ _ _ bye "shutdown_request" (firstn 2 (skipn 7 shop_gs)) _ _ A2 _ _); [eexists; split; reflexivity|].
    exact (do_shutdown example_manner _ _ CONTROL ["peer"] _ _ _ [("restart", JBool true)] true (or_intror eq_refl)).
Qed.
Definition shop_choices : list (choice * nat) :=
  [(GArrive SHELL (wire_of hello), 1); (GMain, 150); (GPub, 60); (GArrive CONTROL (wire_of bye), 1); (GMain, 100)].
Definition shop_run := dexec (fun ch w => dispatch (v_env shop_serving) w ch) shop_choices [] (d_init (v_kernel shop_serving) (v_start shop_serving)).
Example C108_client_ex : handed (fst shop_run) = [(SHELL, wire_of hello); (CONTROL, wire_of bye)] /\ place_of (d_pc (snd shop_run)) = Between /\
  List.length (published (fst shop_run)) = 8 /\ List.length (sent_through SHELL (fst shop_run)) = 1 /\ List.length (sent_through CONTROL (fst shop_run)) = 1.
Proof. vm_compute. auto. Qed.
(** The cell in an infinite execution; the start message and the five published about it go out. *)
Definition fair_choices : list (choice * nat) := [(GArrive SHELL (wire_of hello), 1); (GMain, 150); (GPub, 100)].
Definition fair_path := dpath (fun ch w => dispatch (v_env shop_serving) w ch) (expand fair_choices) (d_init (v_kernel shop_serving) (v_start shop_serving)).
Definition fair_lab := dlab (fun ch w => dispatch (v_env shop_serving) w ch) (expand fair_choices) (d_init (v_kernel shop_serving) (v_start shop_serving)).
Lemma fair_handed n : prefix (handed (observed fair_lab n)) [(SHELL, wire_of hello); (CONTROL, wire_of bye)].
Proof.
  exists (skipn (List.length (handed (observed fair_lab n))) [(SHELL, wire_of hello); (CONTROL, wire_of bye)]).
  assert (X : prefix (handed (observed fair_lab n)) [(SHELL, wire_of hello)]).
  { destruct (Nat.le_gt_cases n (List.length (expand fair_choices))) as [L|L].
    - destruct (obs_prefix fair_lab n _ L) as [z Hz]. exists (handed z). unfold handed. rewrite <- flat_map_app, <- Hz. unfold fair_lab. rewrite dlab_labels. vm_compute. reflexivity.
    - exists []. rewrite app_nil_r. unfold fair_lab. rewrite dlab_end, dlab_labels by lia. vm_compute. reflexivity. }
  destruct X as [z X]. destruct (handed (observed fair_lab n)) as [|x [|y l]]; [reflexivity|injection X as <- _; reflexivity|discriminate X].
Qed.
Example C108_eventually_ex : fair_path 0 = d_init (v_kernel shop_serving) (v_start shop_serving) /\
  executes (acts (fun ch w => dispatch (v_env shop_serving) w ch)) fair_path fair_lab /\
  just (acts (fun ch w => dispatch (v_env shop_serving) w ch)) fair_path fair_lab AMain /\ just (acts (fun ch w => dispatch (v_env shop_serving) w ch)) fair_path fair_lab APublisher /\
  (forall n, exists gs y, ShippedSpec.session example_manner (fun _ => False) (v_env shop_serving) fresh (handed (observed fair_lab n)) gs y) /\
  ~ In StopRequest (observed fair_lab 251) /\ List.length (f_out (m_pub (d_mem (fair_path 251)))) = 6.
Proof.
  split; [reflexivity|]. split; [apply dpath_executes|]. split; [eapply dpath_just; [reflexivity|vm_compute; reflexivity]|]. split; [eapply dpath_just; [reflexivity|vm_compute; reflexivity]|].
  split; [intros n; eapply session_prefix; [exact shop_session|apply fair_handed]|].
  unfold fair_lab. rewrite !dlab_labels. split; [vm_compute; intuition discriminate|vm_compute; reflexivity].
Qed.
(** The shop without its file (the default name), and with a file whose scheme is unknown. *)
Definition odd_shop : computer := let C := shop "me" in {|
  p_host := p_host C; p_files := fun f => if String.eqb f "kernel.json" then Some (text_of (put_field "signature_scheme" (JStr "hmac-md4") shop_doc)) else None;
  p_entry := p_entry C; p_user := p_user C; p_crypto := p_crypto C; p_now := p_now C; p_regex := p_regex C; p_stdin := p_stdin C; p_indet := p_indet C; p_long := p_long C |}.
Example C108_ends_ex : command ["xecho"] "connection.json" /\ p_files odd_shop "connection.json" = None /\
  exists doc c, parse (text_of (put_field "signature_scheme" (JStr "hmac-md4") shop_doc)) = Ok doc /\ declares doc c /\ g_scheme c = "hmac-md4" /\ ~ In (g_scheme c) schemes /\
  exists e, main odd_shop PTestShell shop_argv = Exn e.
Proof.
  split; [constructor|]. split; [reflexivity|]. exists (put_field "signature_scheme" (JStr "hmac-md4") shop_doc),
    {| g_transport := "tcp"; g_ip := "127.0.0.1"; g_control := "50160"; g_shell := "57503"; g_stdin := "52597"; g_iopub := "40885"; g_hb := "42540"; g_scheme := "hmac-md4"; g_key := "secret" |}.
  split; [vm_compute; reflexivity|]. split; [|split; [reflexivity|split; [vm_compute; intuition discriminate|eexists; vm_compute; reflexivity]]].
  unfold declares, str_field, port_field. repeat split; try (vm_compute; reflexivity); try discriminate; eexists; repeat split; try (vm_compute; reflexivity); vm_compute; discriminate.
Qed.
