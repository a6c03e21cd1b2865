(** What a subscriber of the iopub socket of the default server sees: C91. *)
From Verif Require Import Base BaseFacts Json JsonText Utf8 Utf8Proofs Auth Message MessageProofs WireSpec WireLemmas History HistoryProofs Comm Tree Kernel KernelSpec KernelProofs KernelRun KernelReplies KernelDemo
  Server ServerSpec ServerProofs ServerExec ServerLemmas ServerDemo SequentialSpec Sequential SequentialProofs AnsweredSpec Answered LiveSpec Live LiveDemo PropsSequential PropsAnswered PropsLive ClientSpec Client PropsClient HeardSpec Heard.

(** C91. At every moment of every run, what the publisher has sent is an initial part of the start
    message, of a complete block for each message that was handed to a listener and accepted, in the
    order in which they were handed, and of a part of the block of the last message handed. A block is
    what a subscriber can decode and verify: a busy status whose parent header is the header of the
    message, publications that are not statuses and, if it came on the shell socket, have the same
    parent header or announce a shutdown or an interrupt, and an idle status with the same parent
    header. *)
Theorem C91_heard : forall U (E : env U) raw k start ls s, e_split E = false -> quiet E -> env_utf8 E -> user_publishes E raw -> ~ raw "status" -> e_eh E = EStrict ->
  drun (fun c w => dispatch E w c) (d_init k start) ls s ->
  exists hs rest ms bs last, handed ls = (hs ++ rest)%list /\ understood E hs ms /\
    Forall2 (fun x b => said E (fst x) (m_header (m_base (snd x))) b true) ms bs /\
    ((last = [] /\ List.length rest <= 1) \/ exists c w m ok, rest = [(c, w)] /\ accepted E w m /\ said E c (m_header (m_base m)) last ok) /\
    prefix (f_out (m_pub (d_mem s))) (start :: List.concat bs ++ last).
Proof.
  intros U E raw k start ls s Hs Hq Hu HU Hr He R. destruct (C68_stream U E raw Hs Hq Hu HU Hr k start ls s R) as (es & Hes & St & Hp).
  destruct (stream_said E He _ _ _ St) as (hs & rest & ms & bs & last & H1 & H2 & H3 & H4 & _ & H5).
  exists hs, rest, ms, bs, last. rewrite (episodes_handed _ _ Hes). repeat (split; [assumption|]).
  change (prefix (f_out (m_pub (d_mem s))) (start :: pubs (happened ls))) in Hp. now rewrite H4 in Hp.
Qed.
Print Assumptions C91_heard.

(** C91. For every message that was handed to a listener and accepted, a subscriber eventually sees the
    whole block, from busy to idle, unless the process ends. *)
Theorem C91_idle : forall U (E : env U) raw k start sigma lab, e_split E = false -> quiet E -> env_utf8 E -> user_publishes E raw -> ~ raw "status" -> e_eh E = EStrict ->
  executes (acts (fun c w => dispatch E w c)) sigma lab -> sigma 0 = d_init k start ->
  just (acts (fun c w => dispatch E w c)) sigma lab AMain -> just (acts (fun c w => dispatch E w c)) sigma lab APublisher -> (forall n, exists m, n <= m /\ ~ waits_input (sigma m)) ->
  forall n c w q, In (c, w) (handed (observed lab n)) -> accepted E w q ->
  exists m, n <= m /\
    ((exists b, said E c (m_header (m_base q)) b true /\ contains b (f_out (m_pub (d_mem (sigma m))))) \/
     d_pc (sigma m) = MCrash \/ In StopRequest (observed lab m)).
Proof.
  intros U E raw k start sigma lab Hs Hq Hu HU Hr He Hex H0 HM HP HI n c w q Hin Ha.
  assert (Hown : forall c w, always own ((fun c w => dispatch E w c) c w)) by (intros c' w'; now apply own_dispatch).
  destruct (rests _ Hown k start sigma lab Hex H0 HM HI n) as (i & Hi & Hrest). unfold at_rest in Hrest.
  destruct (place_of (d_pc (sigma i))) eqn:Hpl; [|easy|exists i; split; auto; right; left; destruct (d_pc (sigma i)); easy].
  destruct (C76_published U _ k start sigma lab Hex H0 HP i) as (m & Hm & [Hpub|Hcl]); exists m; (split; [lia|]).
  2: { destruct (closing_at _ k start sigma lab Hex H0 m Hcl) as [H|H]; auto. right. right. now apply (proj1 (stop_at _ k start sigma lab Hex H0 m)). }
  left. pose proof (obs_run _ k start sigma lab Hex H0 i) as R.
  destruct (C68_stream U E raw Hs Hq Hu HU Hr k start _ _ R) as (es & Hes & St & _). rewrite Hpl in St.
  destruct (stream_said E He _ _ _ St) as (hs & rest & ms & bs & last & H1 & H2 & H3 & H4 & H5 & H6). rewrite (H5 eq_refl), app_nil_r in H1.
  assert (Hh : In (c, w) hs).
  { rewrite <- H1, <- (episodes_handed _ _ Hes). destruct (obs_prefix lab n i Hi) as [r ->]. unfold handed. rewrite flat_map_app. apply in_or_app. auto. }
  pose proof (understood_in E _ _ _ _ _ H2 Hh Ha) as Hms. destruct (forall2_in _ _ _ _ H3 Hms) as (b & Hb & Sd). cbn [fst snd] in Sd.
  exists b. split; [exact Sd|]. destruct Hpub as [t ->]. rewrite published_pubs, H4. apply in_concat in Hb as (x & y & ->).
  exists (start :: x), (y ++ last ++ t)%list. cbn [app]. now rewrite <- !app_assoc.
Qed.
Print Assumptions C91_idle.

(** C91. For every message on the shell socket that is accepted, a subscriber eventually sees the whole
    block, unless the message is aborted after the failure of a cell or the process ends. *)
Theorem C91_shell : forall U (E : env U) raw k start sigma lab, e_split E = false -> quiet E -> env_utf8 E -> user_publishes E raw -> ~ raw "status" -> e_eh E = EStrict ->
  executes (acts (fun c w => dispatch E w c)) sigma lab -> sigma 0 = d_init k start ->
  just (acts (fun c w => dispatch E w c)) sigma lab AMain -> just (acts (fun c w => dispatch E w c)) sigma lab APublisher -> (forall n, exists m, n <= m /\ ~ waits_input (sigma m)) ->
  forall n w q, In w (arrived SHELL (observed lab n)) -> accepted E w q ->
  exists m, n <= m /\
    (In (Took w) (observed lab m) \/
     (exists b, said E SHELL (m_header (m_base q)) b true /\ contains b (f_out (m_pub (d_mem (sigma m))))) \/
     d_pc (sigma m) = MCrash \/ In StopRequest (observed lab m)).
Proof.
  intros U E raw k start sigma lab Hs Hq Hu HU Hr He Hex H0 HM HP HI n w q Hin Ha.
  destruct (C75_shell U E k start sigma lab Hs Hex H0 HM HI n) as (i & Hi & [[r Hp]|H]); [|exists i; auto].
  assert (Hw : In w (shell_taken (observed lab i))) by (rewrite Hp; apply in_or_app; auto).
  unfold shell_taken in Hw. apply in_flat_map in Hw as (l & Hl & Hw).
  assert (X : l = Hand SHELL w \/ l = Took w) by (destruct l; try destruct c; cbn in Hw; try easy; destruct Hw as [->|[]]; auto).
  destruct X as [-> | ->]; [|exists i; auto].
  destruct (C91_idle U E raw k start sigma lab Hs Hq Hu HU Hr He Hex H0 HM HP HI i SHELL w q) as (m & Hm & H); auto.
  - unfold handed. apply in_flat_map. exists (Hand SHELL w). cbn. auto.
  - exists m. split; [lia|]. auto.
Qed.
Print Assumptions C91_shell.

(** What a subscriber reads: the type, the identifier in the parent header and the state of a status. *)
Definition subscriber_view (f : frames) : option (option string * option json * option string) :=
  match f with
  | topic :: d :: sg :: th :: tp :: tm :: tc :: _ =>
      match parse th, parse tp, parse tc with Ok h, Ok ph, Ok ct => Some (sfield "msg_type" h, jfield "msg_id" ph, sfield "execution_state" ct) | _, _, _ => None end
  | _ => None
  end.
Definition seen_of (cs : list (choice * nat)) (n : nat) : list (option (option string * option json * option string)) :=
  List.map subscriber_view (tl (f_out (m_pub (d_mem (default_path cs n))))).
Example C91_ex : live_hyps (default_path client_choices) (default_lab client_choices) /\ quiet demo /\ env_utf8 demo /\ user_publishes demo user_types /\ ~ user_types "status" /\ e_eh demo = EStrict /\
  Forall2 (accepted demo) (arrived SHELL (observed (default_lab client_choices) 43)) clients /\
  seen_of client_choices 900 =
    let v ty id st := Some (Some ty, Some (JStr id), st) in
    [v "status" "a-1" (Some "busy"); v "execute_input" "a-1" None; v "stream" "a-1" None; v "execute_result" "a-1" None; v "status" "a-1" (Some "idle");
     v "status" "r1" (Some "busy"); v "status" "r1" (Some "idle");
     v "status" "b-1" (Some "busy"); v "status" "b-1" (Some "idle");
     v "status" "a-2" (Some "busy"); v "execute_input" "a-2" None; v "stream" "a-2" None; v "execute_result" "a-2" None; v "status" "a-2" (Some "idle")].
Proof.
  split; [apply default_live; vm_compute; reflexivity|]. split; [exact demo_quiet|]. split; [exact demo_utf8|]. split; [exact demo_user|]. split; [cbn; intuition discriminate|]. split; [reflexivity|].
  split; [|vm_compute; reflexivity].
  assert (X : arrived SHELL (observed (default_lab client_choices) 43) = List.map wire_of clients) by (unfold default_lab; rewrite dlab_labels; vm_compute; reflexivity).
  rewrite X. repeat constructor; vm_compute; reflexivity.
Qed.

(** The exception is needed: for a request aborted after the failure of a cell no status is ever
    published, although it is accepted and answered. *)
Definition abort_clients : list xmessage := [from "ann" "a-1" (execute "bad" [("stop_on_error", JBool true)]); from "bob" "b-1" (execute "2" [])].
Definition abort_choices : list (choice * nat) :=
  match List.map wire_of abort_clients with
  | [q1; q2] => [(GArrive SHELL q1, 1); (GArrive SHELL q2, 1); (GMain, 500); (GPub, 300); (GHb, 50)]
  | _ => []
  end.
Lemma heard_view E (ph : json) st f : @status_heard U0 E st ph f -> exists x, subscriber_view f = Some (Some "status", jfield "msg_id" ph, x).
Proof.
  intros (h & id & tc & (topic & sg & th & tp & tm & bufs & -> & _ & P1 & P2) & (d & mm & _ & _ & _ & Hty & _) & P3). cbn [subscriber_view].
  rewrite P1, P2, P3. unfold sfield at 1. rewrite Hty. eauto.
Qed.
Theorem C91_abort_refuted : exists U (E : env U) k start sigma lab, e_split E = false /\ e_eh E = EStrict /\
  executes (acts (fun c w => dispatch E w c)) sigma lab /\ sigma 0 = d_init k start /\
  just (acts (fun c w => dispatch E w c)) sigma lab AMain /\ just (acts (fun c w => dispatch E w c)) sigma lab APublisher /\
  (forall n, exists m, n <= m /\ ~ waits_input (sigma m)) /\
  exists n w q, In w (arrived SHELL (observed lab n)) /\ accepted E w q /\
    forall m, n <= m -> d_pc (sigma m) <> MCrash /\ ~ In StopRequest (observed lab m) /\
      forall st f, In f (f_out (m_pub (d_mem (sigma m)))) -> ~ status_heard E st (m_header (m_base q)) f.
Proof.
  exists U0, demo, demo_start, ["start"], (default_path abort_choices), (default_lab abort_choices). split; [reflexivity|]. split; [reflexivity|].
  destruct (default_live abort_choices) as (A & B & C & D & F & G); [vm_compute; reflexivity|vm_compute; reflexivity|].
  repeat (split; [assumption|]). exists (List.length (expand abort_choices)), (wire_of (from "bob" "b-1" (execute "2" []))), (from "bob" "b-1" (execute "2" [])).
  unfold default_path, default_lab.
  split; [rewrite dlab_labels; vm_compute; auto|]. split; [vm_compute; reflexivity|].
  intros m Hm. rewrite dpath_end, dlab_end, dlab_labels by exact Hm.
  split; [vm_compute; discriminate|]. split; [vm_compute; intuition discriminate|]. intros st f Hf Hh. apply heard_view in Hh as [x Hx].
  apply (in_map subscriber_view) in Hf. rewrite Hx in Hf. clear Hx. revert Hf.
  change (jfield "msg_id" (m_header (m_base (from "bob" "b-1" (execute "2" []))))) with (Some (JStr "b-1")).
  match goal with |- In _ ?l -> _ => assert (X : l = let v ty st := Some (Some ty, Some (JStr "a-1"), st) in [None; v "status" (Some "busy"); v "execute_input" None; v "error" None; v "status" (Some "idle")]) by (vm_compute; reflexivity) end.
  rewrite X. cbn. intuition discriminate.
Qed.
Print Assumptions C91_abort_refuted.
