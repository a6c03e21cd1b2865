(** The default server over whole runs: C67-C70. *)
From Verif Require Import Base BaseFacts Json JsonText Utf8 Auth Message WireSpec History Comm Tree Kernel KernelSpec KernelProofs KernelRun KernelLemmas KernelSession KernelDemo
  Server ServerSpec ServerProofs ServerExec ServerLemmas ServerDemo SequentialSpec Sequential SequentialProofs.

(** C67. [episodes ls es]: the messages handed to a listener in the observations [ls], each with the
    messages its handling took from the shell socket. The state of the kernel is the one obtained by
    handling these messages one after the other, whatever the other threads did. *)
Theorem C67_sequential : forall U (E : env U), e_split E = false ->
  forall k start ls s, drun (fun c w => dispatch E w c) (d_init k start) ls s -> exists es, episodes ls es /\
  k_trace (m_k (d_mem s)) = (k_trace k ++ happened ls)%list /\
  match place_of (d_pc s) with
  | Between => served E es (bare k) (bare (m_k (d_mem s)))
  | Handling => exists es' c w l k0 k1 r, es = (es' ++ [(c, w, l)])%list /\ served E es' (bare k) k0 /\
      run (dispatch E w c) (set_shell (List.map Some l) k0) = (k1, r) /\ k_shell k1 = [] /\
      prefix (k_trace k0) (k_trace (m_k (d_mem s))) /\ prefix (k_trace (m_k (d_mem s))) (k_trace k1)
  | Failed => exists es' c w l k0 r, es = (es' ++ [(c, w, l)])%list /\ served E es' (bare k) k0 /\
      run (dispatch E w c) (set_shell (List.map Some l) k0) = (bare (m_k (d_mem s)), r) /\ r <> Ok tt
  end.
Proof. exact @sequence. Qed.
Print Assumptions C67_sequential.
(** The names of the events, for the examples. *)
Definition happened_names (ls : list label) : list string := names (set_trace (happened ls) demo_start).
Definition failing_choices : list (choice * nat) := [(GArrive SHELL failing_cell, 1); (GArrive SHELL exec1, 1); (GArrive SHELL info, 1); (GMain, 500)].
Definition midway_choices : list (choice * nat) := [(GArrive SHELL exec1, 1); (GArrive SHELL exec2, 1); (GMain, 60); (GPub, 30)].
Definition broken_choices : list (choice * nat) := [(GArrive SHELL exec1, 1); (GArrive CONTROL [], 1); (GMain, 500)].
Example C67_ex : e_split demo = false /\
  place_of (d_pc (snd (default_run busy_choices))) = Between /\
  place_of (d_pc (snd (default_run midway_choices))) = Handling /\ handed (fst (default_run midway_choices)) = [(SHELL, exec1); (SHELL, exec2)] /\
  place_of (d_pc (snd (default_run broken_choices))) = Failed.
Proof. vm_compute. auto 10. Qed.

(** C68. The events of the run are the blocks of the messages handled, in order ([stream]): each starts
    with the busy status of the message and ends with its idle status, with no other status in
    between, and contains at most one reply and, after it, the replies to the aborted messages. What
    the publisher has sent is an initial part of the start message and the publications of these
    blocks. *)
Theorem C68_stream : forall U (E : env U) raw, e_split E = false -> quiet E -> env_utf8 E -> user_publishes E raw -> ~ raw "status" ->
  forall k start ls s, drun (fun c w => dispatch E w c) (d_init k start) ls s ->
  exists es, episodes ls es /\ stream E es (place_of (d_pc s)) (happened ls) /\
    prefix (f_out (m_pub (d_mem s))) (start :: flat_map (fun e => match e with EPublish _ _ w => [w] | _ => [] end) (happened ls)).
Proof.
  intros U E raw Hs Hq Hu HU Hraw k start ls s H. destruct (server_stream E raw Hs Hq Hu HU Hraw k start ls s H) as (es & He & St).
  exists es. split; auto. split; auto. replace (flat_map _ (happened ls)) with (published ls); [exact (server_publisher _ _ _ _ _ H)|].
  clear. unfold published, happened. induction ls as [|l ls IH]; auto. cbn [flat_map]. rewrite flat_map_app, IH. f_equal. destruct l; auto. cbn. now rewrite app_nil_r.
Qed.
Print Assumptions C68_stream.
Example C68_ex : quiet demo /\ env_utf8 demo /\ user_publishes demo user_types /\ ~ user_types "status" /\
  happened_names (fst (default_run failing_choices)) = ["busy"; "execute_input"; "interpreter"; "error"; "execute_reply"; "execute_reply"; "kernel_info_reply"; "idle"] /\
  place_of (d_pc (snd (default_run failing_choices))) = Between /\
  happened_names (fst (default_run midway_choices)) = ["busy"; "execute_input"; "interpreter"; "stream"; "execute_result"; "execute_reply"; "idle"; "busy"; "execute_input"; "interpreter"].
Proof.
  split; [exact demo_quiet|]. split; [exact demo_utf8|]. split; [exact demo_user|]. split; [cbn; intuition discriminate|]. vm_compute. auto.
Qed.

(** C69. The replies sent answer different messages received, in the order in which these were
    received: no message is answered twice, no reply is sent to another client. *)
Theorem C69_replies : forall U (E : env U) raw, e_split E = false -> quiet E -> env_utf8 E -> user_publishes E raw -> ~ raw "status" ->
  forall k start ls s, drun (fun c w => dispatch E w c) (d_init k start) ls s ->
  exists xs, sub xs (received ls) /\ Forall2 (answers E) xs (sends (happened ls)).
Proof. exact @server_replies. Qed.
Print Assumptions C69_replies.
Example C69_ex : received (fst (default_run failing_choices)) = [(SHELL, failing_cell); (SHELL, exec1); (SHELL, info)] /\
  List.map (fun e => match e with ESend c m _ => (c, m_ids m, msg_type m) | _ => (SHELL, [], None) end) (sends (happened (fst (default_run failing_choices)))) =
    [(SHELL, ["peer"], Some "execute_reply"); (SHELL, ["peer"], Some "execute_reply"); (SHELL, ["peer"; "x"], Some "kernel_info_reply")].
Proof. vm_compute. auto. Qed.

(** C70. The identifiers of all messages sent by the server, start message included, are distinct, and
    all the messages have complete headers and are signed. *)
Theorem C70_identifiers : forall U (E : env U) raw, e_split E = false -> quiet E -> env_utf8 E -> user_publishes E raw ->
  (forall a b, e_guid E a = e_guid E b -> a = b) ->
  forall u q start ls s, drun (fun c w => dispatch E w c) (d_init (fst (run (kernel_start E) (kinit u q))) start) ls s ->
  NoDup (event_ids (k_trace (m_k (d_mem s)))) /\ Forall (well_sent E) (k_trace (m_k (d_mem s))) /\
  (forall e h, In e (k_trace (m_k (d_mem s))) -> emitted e = Some h -> exists id ty, header_with h id ty (e_user_name E) (e_session_id E)).
Proof.
  intros U E raw Hs Hq Hu HU Hinj u q start ls s H. destruct (start_extends E raw Hu HU u q) as [X _].
  destruct (server_extends E raw Hs Hq Hu HU _ _ _ _ H) as (k' & Y & [r P]).
  assert (Z : KernelSession.extends E (kinit u q) k') by (eapply KernelSession.extends_trans; [exact X|exact Y]).
  destruct Z as (evs & T & N & F). cbn in T. rewrite T in P. subst evs. apply numbered_cut in N. apply Forall_app in F as [F _].
  split; [|split; [exact F|exact (numbered_headers E _ _ _ N)]].
  destruct (numbered_ids E _ _ _ N) as (ns & -> & _ & Hn). now apply map_inj_NoDup.
Qed.
Print Assumptions C70_identifiers.
Example C70_ex : (forall a b, e_guid demo a = e_guid demo b -> a = b) /\
  event_ids (k_trace (m_k (d_mem (snd (default_run failing_choices))))) = List.map ticks [0; 1; 2; 3; 4; 5; 6; 7].
Proof. split; [exact ticks_inj|]. vm_compute. reflexivity. Qed.
