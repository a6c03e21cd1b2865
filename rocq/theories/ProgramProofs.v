(** Proofs for C108. *)
From Verif Require Import Base BaseFacts Json JsonText Utf8 Utf8Proofs Hex Auth Message MessageProofs WireSpec WireLemmas History HistoryProofs Comm Tree Kernel KernelSpec KernelProofs KernelRun KernelDispatch
  Server ServerSpec ServerProofs SequentialSpec Heard Client Shipped ShippedSpec ShippedProofs Split Host HostSpec HostProofs Construct ConstructSpec ConstructProofs Program ProgramSpec.

(** ** What these kernels send *)
Section Speaks.
  Context (E : env unit) (W : manner) (T : string -> Prop).
  Hypothesis SH : shipped E W T.
  Definition proper (e : event) : Prop :=
    well_sent E e /\
    (forall h, emitted e = Some h -> exists id ty, header_with h id ty (e_user_name E) (e_session_id E)) /\
    match e with EPublish _ m _ => m_buffers (m_pbase m) = [] | ESend _ m _ | EStdin m _ => m_buffers (m_base m) = [] | _ => True end.
  Definition speaks (o : kop unit) : Prop := match o with KEmit e => proper e | _ => True end.
  Lemma silent_op e : match e with EPublish _ _ _ | ESend _ _ _ | EStdin _ _ => False | _ => True end -> proper e.
  Proof. destruct e; try contradiction; intros _; (split; [exact I|]); (split; [discriminate|exact I]). Qed.
  Ltac df := repeat match goal with
    | |- always _ (tbind _ _) => apply always_bind; [|intros ?]
    | |- always _ (catch_std _ _) => apply always_catch
    | |- always _ (attempt _) => apply always_attempt
    | |- always _ (of_res _) => apply always_of_res
    | |- always _ (kdo (KEmit _)) => split; [apply silent_op; exact I | intros ?; exact I]
    | |- always _ (kdo _) => split; [exact I | intros ?; exact I]
    | |- always _ (Ret _) => exact I
    | |- always _ (Throw _) => exact I
    | |- always _ (Stuck _) => exact I
    | |- always _ (match ?x with _ => _ end) => destruct x
    | _ => progress unfold log, emit, new_guid, now, new_header, get_metadata, with_comms, look_comms
    end.
  Lemma header_bind ty {A} (k : json -> kprog unit A) :
    (forall id d, always speaks (k (make_header id d ty (e_user_name E) (e_session_id E)))) -> always speaks (tbind (new_header E ty) k).
  Proof. intros H. unfold new_header, new_guid, now. cbn [tbind]. repeat (split; [exact I|intros ?]). cbn [tbind]. apply H. Qed.
  Lemma speaks_publish ty md ct c : always speaks (publish_message E ty md ct [] c).
  Proof.
    unfold publish_message. apply header_bind. intros id d. apply always_bind; [split; [exact I|intros ?; exact I]|]. intros ph. cbv zeta.
    apply always_bind; [apply always_of_res|]. intros _. destruct (pub_serialize _ _ _ _) as [w| |] eqn:S; [|exact I|exact I]. cbn [of_res tbind]. split; [|intros ?; exact I].
    split; [exact S|]. split; [|reflexivity]. intros h [= <-]. eexists _, _. apply header_with_make.
  Qed.
  Lemma speaks_reply_to ids ty ph md ct c : always speaks (send_reply_to E ids ty ph md ct c).
  Proof.
    unfold send_reply_to. apply header_bind. intros id d. cbv zeta.
    apply always_bind; [apply always_of_res|]. intros _. destruct (serialize _ _ _ _) as [w| |] eqn:S; [|exact I|exact I]. cbn [of_res tbind]. split; [|intros ?; exact I].
    split; [exact S|]. split; [|reflexivity]. intros h [= <-]. eexists _, _. apply header_with_make.
  Qed.
  Lemma speaks_reply ty md ct c : always speaks (send_reply E ty md ct c).
  Proof. unfold send_reply. df. apply speaks_reply_to. Qed.
  Lemma speaks_call o k : always speaks (api0 E o) -> always speaks (embed E k) -> always speaks (embed E (Shipped.call o k)).
  Proof.
    intros H1 H2. change (embed E (Shipped.call o k)) with (tbind (attempt (api0 E o)) (fun r => embed E (match r with inl _ => k | inr e => Throw e end))).
    apply always_bind; [now apply always_attempt|]. intros [|]; [exact H2|exact I].
  Qed.
  Lemma speaks_interp r : always speaks (interp E r).
  Proof.
    unfold interp. apply always_bind; [split; [apply silent_op; exact I|intros ?; exact I]|]. intros _.
    destruct SH as [[_ -> _ _ _ _ _]|[_ -> _ _ _ _ _]]; destruct r; try exact I; cbn [custom_interpreter test_interpreter].
    - unfold custom_execute. apply speaks_call; [apply speaks_publish|]. apply speaks_call; [apply speaks_publish|]. exact I.
    - unfold test_execute. cbv zeta. repeat match goal with |- context [if ?b then _ else _] => destruct b end; repeat (apply speaks_call; [apply speaks_publish|]); exact I.
  Qed.
  Lemma speaks_run_handler h m : always speaks (run_handler E h m).
  Proof. unfold run_handler. destruct SH as [[_ _ _ Hh _ _ _]|[_ _ _ Hh _ _ _]]; destruct h; try exact I; (apply always_bind; [split; [apply silent_op; exact I|intros ?; exact I]|]); intros _; rewrite Hh; exact I. Qed.
  Lemma speaks_run_callback h a m : always speaks (run_callback E h a m).
  Proof. unfold run_callback. destruct SH as [[_ _ Hh _ _ _ _]|[_ _ Hh _ _ _ _]]; destruct h; try exact I; (apply always_bind; [split; [apply silent_op; exact I|intros ?; exact I]|]); intros _; rewrite Hh; exact I. Qed.
  Ltac dd := repeat (df; try match goal with
    | |- always _ (publish_message _ _ _ _ _ _) => apply speaks_publish
    | |- always _ (send_reply _ _ _ _ _) => apply speaks_reply
    | |- always _ (send_reply_to _ _ _ _ _ _ _) => apply speaks_reply_to
    | |- always _ (interp _ _) => apply speaks_interp
    | |- always _ (run_handler _ _ _) => apply speaks_run_handler
    | |- always _ (run_callback _ _ _ _) => apply speaks_run_callback
    end).
  Lemma speaks_abort n : always speaks (abort_loop E n).
  Proof. induction n as [|n IH]; cbn [abort_loop]; dd; auto. unfold abort_request. cbv zeta. dd. Qed.
  Lemma speaks_handler ty h m c : mfind ty (handlers E) = Some h -> always speaks (h m c).
  Proof.
    unfold handlers. cbn [mfind]. repeat (match goal with |- context [String.eqb ?a ?b] => destruct (String.eqb a b) end; [intros [= <-]|]); try discriminate.
    - unfold execute_request, interp_execute, publish_execution_input, abort_queue. cbv zeta. dd. apply speaks_abort.
    - unfold complete_request. cbv zeta. dd.
    - unfold inspect_request. cbv zeta. dd.
    - unfold history_request. cbv zeta. dd.
    - unfold is_complete_request. cbv zeta. dd.
    - unfold comm_info_request. cbv zeta. dd.
    - unfold comm_open. cbv zeta. dd.
    - unfold comm_close. cbv zeta. dd.
    - unfold comm_msg. cbv zeta. dd.
    - unfold kernel_info_request. cbv zeta. dd.
    - unfold shutdown_request. cbv zeta. dd.
    - unfold interrupt_request. cbv zeta. dd.
    - unfold debug_request. rewrite (sh_nodebug E W T SH). exact I.
  Qed.
  Lemma speaks_dispatch w c : always speaks (dispatch E w c).
  Proof.
    unfold dispatch, set_parent, publish_status. cbv zeta. dd. unfold handle.
    match goal with |- always _ (match mfind ?t _ with _ => _ end) => destruct (mfind t (handlers E)) as [h|] eqn:Hf; [|exact I] end. dd. eapply speaks_handler; eauto.
  Qed.
  Lemma run_proper k start ls s : drun (fun c w => dispatch E w c) (d_init k start) ls s -> Forall proper (happened ls).
  Proof.
    intros H. remember (d_init k start) as s0 eqn:E0. induction H as [s|s ls s1 l s2 H IH St]; [constructor|]. specialize (IH E0). subst s.
    pose proof (keeps_programs speaks _ (fun c w => speaks_dispatch w c) k start _ _ H) as K.
    unfold happened. rewrite flat_map_app. apply Forall_app. split; [exact IH|]. cbn [flat_map]. rewrite app_nil_r. clear IH H.
    destruct St as [s1 l s2 M| | | | | |]; try constructor. destruct M as [| | | |m m' o k' x rs M| | | | |m m' o k' x M| | | | | |]; cbn [d_pc] in K; try constructor.
    all: destruct K as [K _]; destruct o; cbn [op_label]; try apply Forall_nil; try (destruct x; cbn [op_label]; apply Forall_nil).
    all: cbn [speaks] in K; destruct e; cbn [event_label]; (apply Forall_cons; [exact K|apply Forall_nil]).
  Qed.
  Lemma speaks_start : always speaks (kernel_start E).
  Proof.
    unfold kernel_start. apply always_bind.
    - destruct SH as [[-> _ _ _ _ _ _]|[-> _ _ _ _ _ _]]; [exact I|]. change (embed E test_configure) with (tbind (attempt (api0 E (ARegTarget "test_target" (Some 0)))) (fun r => embed E (match r with inl _ => Ret tt | inr e => Throw e end))).
      apply always_bind; [apply always_attempt; cbn [api0]; df|]. intros [|]; exact I.
    - intros []. unfold build_start_msg. unfold new_header, new_guid, now. cbn [tbind]. split; [exact I|intros id]. cbn [tbind]. split; [exact I|intros d]. cbn [tbind]. cbv zeta.
      destruct (pub_serialize _ _ _ _) as [w| |] eqn:S; [|exact I|exact I]. cbn [of_res tbind fst snd]. split; [|intros ?; exact I].
      split; [exact S|]. split; [|reflexivity]. intros h [= <-]. eexists _, _. apply header_with_make.
  Qed.
  Lemma trace_proper {A} (p : kprog unit A) : always speaks p -> forall s k r, run p s = (k, r) -> exists evs, k_trace k = (k_trace s ++ evs)%list /\ Forall proper evs.
  Proof.
    induction p as [a|e|w|o q IH]; intros Hp s k r R; try (injection R as <- <-; exists []; now rewrite app_nil_r).
    destruct Hp as [Ho Hq]. unfold run in R. cbn [exec] in R. destruct (kstep o s) as [s1 x] eqn:K.
    destruct (IH x (Hq x) s1 k r R) as (evs & Te & P).
    assert (X : k_trace s1 = (k_trace s ++ match o with KEmit e => [e] | _ => [] end)%list).
    { destruct o; cbn [kstep] in K; try (injection K as <- _; cbn; now rewrite ?app_nil_r).
      - destruct (k_shell s); injection K as <- _; cbn; now rewrite app_nil_r.
      - destruct (k_replies s); injection K as <- _; cbn; now rewrite app_nil_r. }
    rewrite Te, X, <- app_assoc. eexists. split; [reflexivity|]. apply Forall_app. split; [|exact P]. destruct o; try constructor; [exact Ho|constructor].
  Qed.
End Speaks.

(** ** What a reader of the file sees *)
Section Reading.
  Context (E : env unit) (W : manner) (T : string -> Prop) (c : config).
  Hypothesis SH : shipped E W T.
  Hypothesis Hsh : shared c.
  Hypothesis Ha : make_xauthentication (g_scheme c) (g_key c) = Ok (e_auth E).
  Lemma sign_seal h p m t : sign (e_crypto E) (e_auth E) h p m t = seal (e_crypto E) c h p m t.
  Proof.
    revert Ha. unfold make_xauthentication, seal. destruct (String.eqb (g_scheme c) "none"); [intros [= <-]; reflexivity|].
    destruct (existsb _ schemes); [|discriminate]. intros [= <-]. reflexivity.
  Qed.
  Lemma asks_accepted q w : asks (e_crypto E) c q w -> accepted E w q.
  Proof.
    intros (h & p & m & t & -> & Hd & H1 & H2 & H3 & H4). unfold accepted. rewrite <- sign_seal.
    apply (wire_accept (e_crypto E) (e_auth E) (m_ids q) (sign (e_crypto E) (e_auth E) h p m t) h p m t (m_buffers (m_base q)) Hd q). repeat split; auto. apply verify_sign.
  Qed.
  Lemma forged_rejected w : forged (e_crypto E) c w -> rejected E w.
  Proof.
    intros (Hn & ids & sg & h & p & m & t & bufs & -> & Hd & Hl & Hf). unfold rejected. revert Ha Hl Hf. unfold make_xauthentication, seal.
    destruct (String.eqb_spec (g_scheme c) "none") as [|_]; [contradiction|]. destruct (existsb _ schemes); [|discriminate]. intros [= <-] Hl Hf.
    destruct (deserialize (e_crypto E) (HmacAuth (g_scheme c) (g_key c)) (ids ++ DELIMITER :: sg :: h :: p :: m :: t :: bufs)) as [x|e|u] eqn:D.
    - apply accept_prefix in D as [tail ->]; [|exact Hd]. now destruct (Hf tail).
    - exists (match e with Std s => s | _ => "" end). apply deserialize_exn_std in D. destruct e; [reflexivity|discriminate].
    - exfalso. revert D. unfold deserialize. destruct (ids ++ DELIMITER :: sg :: h :: p :: m :: t :: bufs)%list as [|f w] eqn:F; [now destruct ids|]. cbn [pop bind].
      assert (take_ids f w [] = Ok (ids, sg :: h :: p :: m :: t :: bufs)) as ->.
      { apply take_ids_ok. exists ids. repeat split; auto. discriminate. }
      cbn [bind]. unfold base_deserialize. cbn [pop bind].
      pose proof (parse_noub h) as N1. pose proof (parse_noub p) as N2. pose proof (parse_noub m) as N3. pose proof (parse_noub t) as N4.
      destruct (parse h); try discriminate. destruct (parse p); try discriminate. destruct (parse m); try discriminate. destruct (parse t); try discriminate. cbn [bind].
      cbn [verify]. unfold digest. destruct (Nat.ltb_spec (slen sg) (slen (hex_string (hmac (e_crypto E) (g_scheme c) (g_key c) (h +++ p +++ m +++ t))))); [lia|]. cbn [bind].
      now destruct (String.eqb _ _).
  Qed.
  Lemma header_type h id ty user session : header_with h id ty user session -> type_in h = ty /\ jfield "msg_type" h = Some (JStr ty) /\ jfield "username" h = Some (JStr user) /\ jfield "session" h = Some (JStr session).
  Proof. intros (d & m & _ & _ & _ & H & U & V & _). unfold type_in. rewrite H. auto. Qed.
  Definition frames_of (e : event) : list frames := match e with EPublish _ _ w | ESend _ _ w | EStdin _ w => [w] | _ => [] end.
  Lemma strict : e_eh E = EStrict.
  Proof. destruct SH as [[]|[]]; assumption. Qed.
  Lemma proper_tells e g w : proper E e -> gist_of e = [g] -> frames_of e = [w] -> tells (e_crypto E) c (e_user_name E) (e_session_id E) g w.
  Proof.
    intros (Hw & Hh & Hb) G F. destruct e as [ch m w'|ch m w'|m w'| | | | | | ]; try discriminate G; injection G as <-; injection F as ->.
    - destruct (Hh _ eq_refl) as (id & ty & Hd). destruct (header_type _ _ _ _ _ Hd) as (T1 & T2 & T3 & T4). cbn [well_sent] in Hw.
      apply (pub_shape E strict) in Hw as (th & tp & tm & tc & D1 & D2 & D3 & D4 & ->). rewrite Hb.
      exists [m_topic m], ty, (m_parent_header (m_pbase m)), (m_content (m_pbase m)), (m_header (m_pbase m)), th, tp, tc. cbv beta iota. rewrite T1.
      split; [eauto 6|]. split; [exists tm; now rewrite sign_seal|]. auto 7.
    - destruct (Hh _ eq_refl) as (id & ty & Hd). destruct (header_type _ _ _ _ _ Hd) as (T1 & T2 & T3 & T4). cbn [well_sent] in Hw.
      rewrite strict in Hw. apply serialize_shape in Hw as (th & tp & tm & tc & D1 & D2 & D3 & D4 & ->). rewrite Hb.
      exists (m_ids m), ty, (m_parent_header (m_base m)), (m_content (m_base m)), (m_header (m_base m)), th, tp, tc. cbv beta iota. rewrite T1.
      split; [auto|]. split; [exists tm; unfold wire; now rewrite sign_seal|]. auto 7.
    - destruct (Hh _ eq_refl) as (id & ty & Hd). destruct (header_type _ _ _ _ _ Hd) as (T1 & T2 & T3 & T4). cbn [well_sent] in Hw.
      rewrite strict in Hw. apply serialize_shape in Hw as (th & tp & tm & tc & D1 & D2 & D3 & D4 & ->). rewrite Hb.
      exists (m_ids m), ty, (m_parent_header (m_base m)), (m_content (m_base m)), (m_header (m_base m)), th, tp, tc. cbv beta iota. rewrite T1.
      split; [auto|]. split; [exists tm; unfold wire; now rewrite sign_seal|]. auto 7.
  Qed.
  Lemma published_tells evs : Forall (proper E) evs -> Forall2 (tells (e_crypto E) c (e_user_name E) (e_session_id E)) (on_iopub (gists evs)) (pubs evs).
  Proof.
    induction 1 as [|e evs P _ IH]; [constructor|]. unfold gists, pubs, on_iopub in *. cbn [flat_map]. rewrite filter_app.
    destruct e as [ch m w|ch m w|m w| | | | | | ]; cbn [gist_of filter app]; try exact IH. constructor; [|exact IH]. eapply proper_tells; [exact P|reflexivity|reflexivity].
  Qed.
  Lemma sent_tells ch ls : Forall (proper E) (happened ls) -> Forall2 (tells (e_crypto E) c (e_user_name E) (e_session_id E)) (on_socket ch (gists (happened ls))) (sent_through ch ls).
  Proof.
    unfold gists, on_socket, happened, sent_through. induction ls as [|l ls IH]; [constructor|]. cbn [flat_map]. intros P. apply Forall_app in P as [P1 P2]. specialize (IH P2).
    rewrite flat_map_app, filter_app. destruct l; try exact IH.
    destruct e as [ch' m w|ch' m w|m w| | | | | | ]; cbn [flat_map gist_of filter app]; try exact IH. destruct (Kernel.chan_eqb ch ch'); [|exact IH].
    constructor; [|exact IH]. inversion P1; subst. eapply proper_tells; [eassumption|reflexivity|reflexivity].
  Qed.
End Reading.
Lemma published_pubs ls : published ls = pubs (happened ls).
Proof.
  unfold published, pubs, happened. induction ls as [|l ls IH]; [reflexivity|]. cbn [flat_map]. rewrite flat_map_app, <- IH. destruct l; try reflexivity. cbn [flat_map]. now rewrite app_nil_r.
Qed.

(** ** Down to the loop of the server *)
Lemma command_file argv f : command argv f -> file_name argv = Ok f.
Proof. now intros []. Qed.
Lemma user_name_is C : user_is C (get_user_name C).
Proof. unfold user_is, get_user_name. destruct (p_entry C); [now left|]. right. destruct (p_user C); [left|right]; auto. Qed.
Section Built.
  Context (C : computer) (c : config).
  Hypothesis Htr : g_transport c = "tcp".
  Hypothesis Hp : forall ch, port_of ch c <> "" /\ no_colon (port_of ch c).
  Hypothesis Hav : available C c.
  Lemma socket_made ch b : ~ In (address c ch) (b_bound b) ->
    init_socket (p_host C) (g_transport c) (g_ip c) (port_of ch c) b = Ok (Some (address c ch), {| b_draws := b_draws b; b_bound := b_bound b ++ [address c ch] |}).
  Proof.
    intros Hn. unfold init_socket. destruct (String.eqb_spec (port_of ch c) "") as [Z|_]; [now destruct (Hp ch)|]. cbn [negb].
    rewrite Htr, end_point_tcp. change ("tcp://" +++ g_ip c +++ ":" +++ port_of ch c) with (address c ch). now rewrite (av_bind C c Hav _ _ Hn).
  Qed.
  Lemma all_made l : NoDup l -> forall s b, (forall ch, In ch l -> ~ In (address c ch) (b_bound b)) ->
    exists s' b', bind_all (p_host C) l c s b = Ok (s', b') /\ forall ch, s' ch = if existsb (chan_eqb ch) l then Some (address c ch) else s ch.
  Proof.
    induction 1 as [|ch l Hn Hd IH]; intros s b Hb; [eexists _, _; split; [reflexivity|reflexivity]|].
    cbn [bind_all]. rewrite socket_made by (apply Hb; now left). cbn [bind].
    destruct (IH (fun ch' => if chan_eqb ch' ch then Some (address c ch) else s ch') {| b_draws := b_draws b; b_bound := b_bound b ++ [address c ch] |}) as (s' & b' & R & S).
    { intros ch' Hin Hx. cbn [b_bound] in Hx. apply in_app_or in Hx as [Hx|[Hx|[]]]; [apply (Hb ch'); [now right|exact Hx]|]. apply (av_distinct C c Hav) in Hx. now subst. }
    exists s', b'. split; [exact R|]. intros ch'. rewrite S. cbn [existsb]. destruct (chan_eqb ch' ch) eqn:Q; cbn [orb]; [|reflexivity].
    assert (ch' = ch) as -> by (destruct ch', ch; try discriminate Q; reflexivity). now destruct (existsb _ l).
  Qed.
  Lemma server_made split : exists s b, make_server (p_host C) split c {| b_draws := 0; b_bound := [] |} = Ok (s, b) /\ forall ch, s ch = Some (address c ch).
  Proof.
    destruct (all_made (bind_order split)) with (s := fun _ : chan => @None string) (b := {| b_draws := 0; b_bound := [] |}) as (s & b & R & S).
    - destruct split; repeat constructor; cbn; intuition discriminate.
    - intros ch _ [].
    - exists s, b. split; [exact R|]. intros ch. rewrite S. destruct split, ch; reflexivity.
  Qed.
  Lemma port_again ch : port_read (Some (address c ch)) = Ok (port_of ch c).
  Proof. unfold port_read. change (address c ch) with (get_end_point "tcp" (g_ip c) (port_of ch c)). apply tcp_port; [apply Hp|]. apply (av_short C c Hav). Qed.
  Lemma config_again s : (forall ch, s ch = Some (address c ch)) -> update_config s c = Ok c.
  Proof.
    intros S. unfold update_config. rewrite !S, !port_again. cbn [bind port_of]. now destruct c.
  Qed.
  Hypothesis Hsh : shared c.
  Lemma auth_made : exists a, make_xauthentication (g_scheme c) (g_key c) = Ok a.
  Proof.
    unfold make_xauthentication. destruct (String.eqb_spec (g_scheme c) "none") as [|N]; [eauto|]. destruct Hsh as [|[I _]]; [contradiction|].
    assert (existsb (String.eqb (g_scheme c)) schemes = true) as ->; [|eauto]. apply existsb_exists. exists (g_scheme c). split; [exact I|apply String.eqb_refl].
  Qed.
End Built.
Lemma declares_ports doc c : declares doc c -> forall ch, port_of ch c <> "" /\ no_colon (port_of ch c).
Proof.
  intros (_ & _ & D1 & D2 & D3 & D4 & D5 & _) ch.
  assert (X : exists n, (0 <= n)%Z /\ port_of ch c = dec_of_Z n) by (destruct ch; cbn [port_of]; [destruct D1|destruct D2|destruct D3|destruct D4|destruct D5]; intuition eauto with zarith).
  destruct X as (n & _ & ->). split; [|apply dec_no_colon]. apply dec_nonempty.
Qed.
Lemma shipped_env C p c k : shipped (env_of C p c k) (manner_of p) (targets_of p).
Proof. destruct p; [apply sh_example|apply sh_test|apply sh_test|apply sh_test]; constructor; reflexivity. Qed.
Lemma clean_env C p c k x calls b : clean C -> init (p_host C) x c = (calls, b, Ok k) -> env_utf8 (env_of C p c k).
Proof.
  intros [H1 H2 H3 H4] I. apply init_ok in I as (c1 & d & _ & _ & _ & _ & _ & _ & _ & _ & Hs & _). repeat split.
  - cbn [env_of e_user_name]. unfold get_user_name. destruct (p_entry C); [auto|]. destruct (p_user C); [auto|]. apply utf8_lit. reflexivity.
  - cbn [env_of e_session_id]. rewrite Hs. apply H3.
  - intros n. cbn [env_of e_guid]. apply H3.
  - exact H4.
Qed.
Lemma init_serves C p c : (forall ch, port_of ch c <> "" /\ no_colon (port_of ch c)) -> g_transport c = "tcp" -> available C c -> shared c ->
  exists calls b k, init (p_host C) (args_of p) c = (calls, b, Ok k) /\ make_xauthentication (g_scheme c) (g_key c) = Ok (n_auth k) /\ forall ch, n_sockets k ch = Some (address c ch).
Proof.
  intros Hp Htr Hav Hsh. unfold init. set (c1 := if String.eqb (g_key c) "" then _ else c).
  assert (Q : g_transport c1 = g_transport c /\ g_ip c1 = g_ip c /\ g_scheme c1 = g_scheme c /\ (forall ch, port_of ch c1 = port_of ch c) /\
              make_xauthentication (g_scheme c1) (g_key c1) = make_xauthentication (g_scheme c) (g_key c)).
  { unfold c1. destruct (String.eqb_spec (g_key c) "") as [Z|]; [|repeat split]. repeat split. destruct Hsh as [N|[_ N]]; [|contradiction].
    cbn [with_key g_scheme g_key]. unfold make_xauthentication. now rewrite N. }
  destruct Q as (Q1 & Q2 & Q3 & Q4 & Q5). clearbody c1.
  assert (Qa : forall ch, address c1 ch = address c ch) by (intros ch; unfold address; now rewrite Q2, Q4).
  assert (Hav1 : available C c1) by (destruct Hav as [A1 A2 A3]; constructor; intros *; rewrite !Qa; auto).
  assert (Hp1 : forall ch, port_of ch c1 <> "" /\ no_colon (port_of ch c1)) by (intros ch; rewrite Q4; apply Hp).
  rewrite Q5. destruct (auth_made c Hsh) as [a Ha]. rewrite Ha. rewrite <- Q1 in Htr.
  destruct (server_made C c1 Htr Hp1 Hav1 (x_split (args_of p))) as (s & b & R & S). cbv zeta. rewrite R. rewrite (config_again C c1 Htr Hp1 Hav1 s S).
  cbn [args_of x_debugger x_configure]. eexists _, _, _. split; [reflexivity|]. cbn [n_auth n_sockets]. split; [reflexivity|]. intros ch. now rewrite S, Qa.
Qed.
Lemma main_serves C p argv f text doc c : command argv f -> p_files C f = Some text -> parse text = Ok doc -> declares doc c -> shared c -> g_transport c = "tcp" -> available C c -> clean C ->
  exists v, main C p argv = Ok v /\ (forall ch, n_sockets (v_made v) ch = Some (address c ch)) /\
    shipped (v_env v) (manner_of p) (targets_of p) /\ env_utf8 (v_env v) /\ e_crypto (v_env v) = p_crypto C /\ e_user_name (v_env v) = get_user_name C /\ e_split (v_env v) = splits p /\
    make_xauthentication (g_scheme c) (g_key c) = Ok (e_auth (v_env v)) /\
    run (kernel_start (v_env v)) (kinit tt []) = (v_kernel v, Ok tt) /\ v_start v = last_frames (k_trace (v_kernel v)).
Proof.
  intros Hc Hf Hd Hdc Hsh Htr Hav Hcl. unfold main. rewrite (command_file _ _ Hc). cbn [bind]. rewrite Hf, (declares_loads _ _ _ Hd Hdc). cbn [bind].
  destruct (init_serves C p c (declares_ports _ _ Hdc) Htr Hav Hsh) as (calls & b & k & I & Ha & S). rewrite I. cbn [snd bind].
  pose proof (shipped_env C p c k) as SH. pose proof (clean_env C p c k _ _ _ Hcl I) as EU. destruct (started _ _ _ SH EU []) as (s & R & _). rewrite R.
  eexists. split; [reflexivity|]. cbn [v_made v_env v_kernel v_start]. split; [exact S|]. split; [exact SH|]. split; [exact EU|]. do 3 (split; [reflexivity|]). split; [exact Ha|]. split; [exact R|reflexivity].
Qed.
(** The start message. *)
Lemma start_tells E W T c : shipped E W T -> env_utf8 E -> make_xauthentication (g_scheme c) (g_key c) = Ok (e_auth E) ->
  forall k, run (kernel_start E) (kinit tt []) = (k, Ok tt) ->
  tells (e_crypto E) c (e_user_name E) (e_session_id E) (Said SHELL "status" (JObj []) (JObj [("execution_state", JStr "starting")])) (last_frames (k_trace k)).
Proof.
  intros SH EU Ha k R. destruct (started E W T SH EU []) as (k' & R' & _ & _ & _ & G). rewrite R in R'. injection R' as <-.
  pose proof (trace_proper E _ (speaks_start E W T SH) _ _ _ R) as P.
  unfold kernel_start in R. rewrite run_bind in R. destruct (run (embed E (e_configure E)) _) as [s0 [[]| |]]; try discriminate R. rewrite run_bind in R.
  destruct (run (build_start_msg E) s0) as [s1 [[m w]| |]]; try discriminate R. rewrite run_emit in R. injection R as <-. cbn [fst snd add_event set_trace k_trace] in *.
  unfold last_frames. rewrite rev_app_distr. cbn [rev app]. destruct P as (evs & Te & P). cbn [k_trace kinit app] in Te. rewrite <- Te in P. apply Forall_app in P as [_ P].
  inversion P; subst. eapply (proper_tells E W T c SH Ha); [eassumption| |reflexivity].
  unfold gists in G. rewrite flat_map_app in G. cbn [flat_map app gist_of] in G |- *. destruct (flat_map gist_of (k_trace s1)) as [|g [|]]; try discriminate G. exact G.
Qed.
