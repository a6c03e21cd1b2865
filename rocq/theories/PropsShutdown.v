(** C110: a shutdown request ends the programs that come with xeus, and nothing else does. *)
From Verif Require Import Base BaseFacts Json JsonText Utf8 Utf8Proofs Hex Auth Message MessageProofs WireSpec WireLemmas History HistoryProofs Comm Tree Kernel KernelSpec KernelProofs KernelRun KernelDemo
  Server ServerSpec ServerProofs ServerDemo ServerExec ServerLemmas SequentialSpec Heard Client Shipped ShippedSpec ShippedProofs Split SplitSpec SplitStop LiveSpec Live LiveDemo SplitLiveSpec SplitLive SplitLiveDemo SplitAnsweredSpec SplitRests PropsSplitLive
  Host HostSpec HostProofs Construct ConstructSpec ConstructProofs Program ProgramSpec ProgramProofs PropsHost PropsConstruct PropsLive PropsShipped PropsProgram ThreadSpec ThreadProofs PropsThread ShutdownSpec ShutdownProofs.

(** C110. The kernel asks its server to stop exactly when one of the messages handed over tells it to: only if one did, and - once that message
    has been handled - certainly. *)
Theorem C110_asked : forall E W T, shipped E W T -> env_utf8 E -> e_split E = false ->
  forall k r start ls s, run (kernel_start E) (kinit tt []) = (k, r) -> drun (fun c w => dispatch E w c) (d_init k start) ls s ->
  forall gs y, ShippedSpec.session W T E fresh (ServerSpec.handed ls) gs y ->
  (In StopRequest ls -> told_to_stop E (ServerSpec.handed ls)) /\
  (SequentialSpec.place_of (d_pc s) = Between -> told_to_stop E (ServerSpec.handed ls) -> In StopRequest ls).
Proof. intros E W T SH EU Hsp k r start ls s R H gs y S. eapply run_stops; eauto. Qed.
Print Assumptions C110_asked.
(** Under the split servers, for each thread. *)
Theorem C110_asked_split : forall E W T v, shipped E W T -> env_utf8 E ->
  forall k r start ls s, run (kernel_start E) (kinit tt []) = (k, r) -> yrun v (fun c w => dispatch E w c) (dispatch_internal E) (y_init k start) ls s ->
  (forall c w, In (YHand c w) ls -> keeps_to E c w) ->
  forall c gs y, ShippedSpec.session W T E fresh (handed_to c ls) gs y ->
  (In (YEvent c EStop) ls -> told_to_stop E (handed_to c ls)) /\ (rests c s -> told_to_stop E (handed_to c ls) -> In (YEvent c EStop) ls).
Proof.
  intros E W T v SH EU k r start ls s R H K c gs y S. destruct (started E W T SH EU []) as (k' & R' & RD & M & _). rewrite R in R'. injection R' as <- ->.
  eapply split_stops; eauto.
Qed.
Print Assumptions C110_asked_split.

Lemma shell_handed w ls : (forall w, ~ In (Took w) ls) -> In w (shell_taken ls) -> In (SHELL, w) (ServerSpec.handed ls).
Proof.
  intros N. unfold shell_taken, ServerSpec.handed. rewrite !in_flat_map. intros (l & I & X). exists l. split; [exact I|].
  destruct l as [| | | |c w'|w'| | |]; try (now destruct X); [destruct c; [|now destruct X]; destruct X as [<-|[]]; now left|]. now destruct (N w').
Qed.
Lemma control_handed w ls : In w (control_taken ls) -> In (CONTROL, w) (ServerSpec.handed ls).
Proof.
  unfold control_taken, ServerSpec.handed. rewrite !in_flat_map. intros (l & I & X). exists l. split; [exact I|].
  destruct l as [| | | |c w'|w'| | |]; try (now destruct X). destruct c; [now destruct X|]. destruct X as [<-|[]]; now left.
Qed.

(** The programs with the default server. A shutdown request on either socket, signed with the key of the connection file: with fair threads the
    process exits, its threads having finished, and every message handed over until then has been answered. *)
Theorem C110_ends : forall C p argv c, launched C argv c -> plain p -> forall v, main C p argv = Ok v ->
  let listener := fun ch w => dispatch (v_env v) w ch in
  forall sigma lab, executes (acts listener) sigma lab -> sigma 0 = d_init (v_kernel v) (v_start v) ->
  just (acts listener) sigma lab AMain -> just (acts listener) sigma lab APublisher -> just (acts listener) sigma lab AHeartbeat ->
  (forall n, exists gs y, ShippedSpec.session (manner_of p) (targets_of p) (v_env v) fresh (ServerSpec.handed (observed lab n)) gs y) ->
  forall n ch w q, asks (p_crypto C) c q w -> says_stop q -> In w (ServerSpec.arrived ch (observed lab n)) ->
  exists m, n <= m /\ LiveSpec.ended (sigma m) /\
    exists user session gs y, user_is C user /\ ShippedSpec.session (manner_of p) (targets_of p) (v_env v) fresh (ServerSpec.handed (observed lab m)) gs y /\
      forall ch, Forall2 (tells (p_crypto C) c user session) (on_socket ch gs) (sent_through ch (observed lab m)).
Proof.
  intros C p argv c L Hpl v M listener sigma lab Hex H0 HM HP HB Hcov n ch w q Hq Hs Harr.
  destruct (C108_reads C p argv c L v M) as [Acc _]. specialize (Acc _ _ Hq).
  pose proof L as [(f & text & doc & H1 & H2 & H3 & H4) H5 H6 H7 H8].
  destruct (main_serves C p argv f text doc c H1 H2 H3 H4 H5 H6 H7 H8) as (v' & M' & So & SH & EU & Hc & Hu & He & Ha & R & St). rewrite M in M'. injection M' as <-. assert (Hsp : splits p = false) by (destruct Hpl as [->| ->]; reflexivity). rewrite Hsp in He.
  pose proof (fun i => Live.obs_run _ _ _ sigma lab Hex H0 i) as Hrun.
  assert (HI : forall i, ~ waits_input (sigma i)).
  { intros i. pose proof (keeps_programs deaf _ (fun c w => deaf_dispatch _ _ _ SH w c) _ _ _ _ (Hrun i)) as D. unfold waits_input.
    destruct (d_pc (sigma i)) as [| | |p0 rs| | |p0| | | | | |]; try tauto; destruct p0 as [| | |o g]; try tauto; destruct o; try tauto; now destruct D. }
  assert (HI' : forall i, exists j, i <= j /\ ~ waits_input (sigma j)) by (intros i; exists i; auto).
  assert (HC : forall i, SequentialSpec.place_of (d_pc (sigma i)) <> Failed /\ forall w, ~ In (Took w) (observed lab i)).
  { intros i. destruct (Hcov i) as (gs & y & S). destruct (C107_session _ _ _ SH EU He _ _ _ _ _ R (Hrun i) gs y S) as (A & B & _). auto. }
  assert (X : exists m, n <= m /\ In StopRequest (observed lab m)).
  { destruct (C107_eventually _ _ _ SH EU He _ _ _ _ _ R Hex H0 HM Hcov n) as (m & Lm & [D|(P1 & P2 & _)]); [eauto|].
    assert (Hown : forall c w, always Live.own (listener c w)) by (intros c' w'; now apply Live.own_dispatch).
    destruct (Live.rests _ Hown _ _ sigma lab Hex H0 HM HI' m) as (m' & Lm' & Hr). unfold at_rest in Hr. exists m'. split; [lia|].
    destruct (Hcov m') as (gs & y & S). apply (proj2 (C110_asked _ _ _ SH EU He _ _ _ _ _ R (Hrun m') gs y S)).
    - destruct (SequentialSpec.place_of (d_pc (sigma m'))) eqn:Q; [reflexivity|now destruct Hr|now destruct (proj1 (HC m'))].
    - exists ch, w, q. split; [|split; [exact Acc|exact Hs]].
      assert (Z : In (ch, w) (ServerSpec.handed (observed lab m))).
      { destruct ch; [apply shell_handed; [apply (proj2 (HC m))|]; destruct P1 as [z ->]|apply control_handed; destruct P2 as [z ->]]; apply in_or_app; now left. }
      destruct (Live.obs_prefix lab m m' Lm') as [z ->]. unfold ServerSpec.handed. rewrite flat_map_app. apply in_or_app. now left. }
  destruct X as (m1 & L1 & X). destruct (C74_stop _ _ _ _ _ _ He Hex H0 HM HP HB HI' m1 X) as (m & Lm & [D|D]); [exfalso; apply (proj1 (HC m)); now rewrite D|].
  exists m. split; [lia|]. split; [exact D|]. destruct (Hcov m) as (gs & y & S).
  destruct (C108_client C p argv c L Hpl v M _ _ (Hrun m) gs y S) as (_ & user & session & said & later & U1 & U2 & U3 & _ & U4).
  exists user, session, gs, y. split; [exact U1|]. split; [exact S|]. rewrite U3 in U2 by (destruct D as [-> _]; reflexivity). rewrite app_nil_r in U2. rewrite U2. exact U4.
Qed.
Print Assumptions C110_ends.

(** Nothing else ends them: not the end of the loop, not an exception. *)
Theorem C110_only : forall C p argv c, launched C argv c -> plain p -> forall v, main C p argv = Ok v ->
  let listener := fun ch w => dispatch (v_env v) w ch in
  forall sigma lab, executes (acts listener) sigma lab -> sigma 0 = d_init (v_kernel v) (v_start v) ->
  forall n gs y, ShippedSpec.session (manner_of p) (targets_of p) (v_env v) fresh (ServerSpec.handed (observed lab n)) gs y ->
  ~ alive (d_pc (sigma n)) -> told_to_stop (v_env v) (ServerSpec.handed (observed lab n)).
Proof.
  intros C p argv c L Hpl v M listener sigma lab Hex H0 n gs y S Hd.
  pose proof L as [(f & text & doc & H1 & H2 & H3 & H4) H5 H6 H7 H8].
  destruct (main_serves C p argv f text doc c H1 H2 H3 H4 H5 H6 H7 H8) as (v' & M' & So & SH & EU & Hc & Hu & He & Ha & R & St). rewrite M in M'. injection M' as <-. assert (Hsp : splits p = false) by (destruct Hpl as [->| ->]; reflexivity). rewrite Hsp in He.
  pose proof (Live.obs_run _ _ _ sigma lab Hex H0 n) as Hrun.
  apply (proj1 (C110_asked _ _ _ SH EU He _ _ _ _ _ R Hrun gs y S)). apply (proj1 (Live.stop_at _ _ _ sigma lab Hex H0 n)).
  assert (Cl : closing (d_pc (sigma n))) by (destruct (d_pc (sigma n)); cbn in *; tauto).
  destruct (Live.closing_at _ _ _ sigma lab Hex H0 n Cl) as [Q|Q]; [|exact Q].
  exfalso. destruct (C107_session _ _ _ SH EU He _ _ _ _ _ R Hrun gs y S) as [A _]. apply A. now rewrite Q.
Qed.
Print Assumptions C110_only.

(** ** The split servers *)
Lemma split_facts E W T v : shipped E W T -> env_utf8 E -> let listener := fun c w => dispatch E w c in
  forall k r start sigma lab, run (kernel_start E) (kinit tt []) = (k, r) -> execution v listener (dispatch_internal E) sigma lab -> sigma 0 = y_init k start ->
  (forall n c w, lab n = Some (YHand c w) -> keeps_to E c w) ->
  (forall n c, exists gs y, ShippedSpec.session W T E fresh (handed_to c (seen lab n)) gs y) ->
  (forall i, yrun v listener (dispatch_internal E) (y_init k start) (seen lab i) (sigma i)) /\
  (forall i c w, In (YHand c w) (seen lab i) -> keeps_to E c w) /\ (forall i, y_end (sigma i) <> Some Crashed) /\
  (forall i c w, ~ In (YTook c w) (seen lab i)) /\ keeps_off lab /\ (forall i, ~ calls_itself (sigma i)) /\ (forall c, gets_input c sigma).
Proof.
  intros SH EU listener k r start sigma lab R Hex H0 HK HC.
  destruct (started E W T SH EU []) as (k' & R' & RD & M & _). rewrite R in R'. injection R' as <- ->.
  pose proof (fun i => SplitLive.obs_run v E k start sigma lab Hex H0 i) as Hrun. split; [exact Hrun|].
  assert (HK' : forall i c w, In (YHand c w) (seen lab i) -> keeps_to E c w).
  { intros i c' w. induction i as [|i IH]; [intros []|]. cbn [seen]. intros X. apply in_app_or in X as [X|X]; [auto|]. destruct (lab i) as [l|] eqn:El; [|destruct X]. destruct X as [->|[]]. eauto. }
  split; [exact HK'|].
  assert (Sn : forall i, sane (sigma i)) by (intros i; apply (run_inv E W T v SH EU k RD M start _ _ (Hrun i) (HK' i))).
  split; [intros i; apply (run_end E W T v SH EU k RD M start _ _ (Hrun i) (HK' i) (HC i))|].
  assert (NT : forall i c w, ~ In (YTook c w) (seen lab i)).
  { intros i c'. destruct (HC i c') as (gs & y & S). apply (run_says E W T v SH EU k RD M start _ _ c' gs y (Hrun i) (HK' i) S). }
  split; [exact NT|]. split.
  { intros i w X. apply (NT (S i) CONTROL w). cbn [seen]. rewrite X. apply in_or_app. right. now left. }
  split.
  { intros i. pose proof (sn_owned _ (Sn i) SHELL) as O. pose proof (sn_intern _ (Sn i)) as N. cbn [doing] in O. unfold calls_itself. destruct (y_sh (sigma i)) as [| |g b| |g| |]; auto; [|now destruct (N g)].
    destruct g as [p|kk]; [|now destruct O]. destruct p as [| | |o q]; auto. destruct O as [p' [O _]]. destruct o; auto. }
  intros c' i. exists i. split; [lia|]. pose proof (sn_owned _ (Sn i) c') as O. pose proof (sn_intern _ (Sn i)) as N. unfold at_stdin. destruct c'; cbn [doing] in O.
  - destruct (y_sh (sigma i)) as [| |g b| |g| |]; auto; [|now destruct (N g)]. destruct g as [p|kk]; auto. destruct p as [| | |o q]; auto. destruct O as [p' [O _]]. destruct o; auto.
  - destruct (y_ct (sigma i)) as [| |g| | | | | | | | |]; auto. destruct g as [p|kk]; auto. destruct p as [| | |o q]; auto. destruct O as [p' [O _]]. destruct o; auto.
Qed.
Lemma handed_labels c c' w ls : In (c', w) (handed_to c ls) -> c' = c /\ In (YHand c w) ls.
Proof.
  unfold handed_to. rewrite in_flat_map. intros (l & I & X). destruct l; try (now destruct X). destruct (Kernel.chan_eqb c c0) eqn:Q; [|now destruct X].
  destruct X as [[= <- <-]|[]]. destruct c, c0; try discriminate; auto.
Qed.
(** The test programs with a split server, each message keeping to its thread: the same for a shutdown request on the control socket. *)
Theorem C110_ends_split : forall C p argv c sv, launched C argv c -> server_of p = Some sv -> forall v, main C p argv = Ok v ->
  let listener := fun ch w => dispatch (v_env v) w ch in
  forall sigma lab, execution sv listener (dispatch_internal (v_env v)) sigma lab -> sigma 0 = y_init (v_kernel v) (v_start v) ->
  (forall t, t <> TEnv -> fair sv listener (dispatch_internal (v_env v)) sigma lab t) ->
  (forall n ch w, lab n = Some (YHand ch w) -> keeps_to (v_env v) ch w) ->
  (forall n ch, exists gs y, ShippedSpec.session (manner_of p) (targets_of p) (v_env v) fresh (handed_to ch (seen lab n)) gs y) ->
  forall n w q, asks (p_crypto C) c q w -> says_stop q -> In w (came CONTROL (seen lab n)) ->
  exists m, n <= m /\ all_stopped (sigma m) /\
    exists user session, user_is C user /\ forall th, exists gs y, ShippedSpec.session (manner_of p) (targets_of p) (v_env v) fresh (handed_to th (seen lab m)) gs y /\
      forall ch, Forall2 (tells (p_crypto C) c user session) (on_socket ch gs) (replied_by th ch (seen lab m)).
Proof.
  intros C p argv c sv L Hsv v M listener sigma lab Hex H0 HF HK HC n w q Hq Hs Harr.
  destruct (C108_reads C p argv c L v M) as [Acc _]. specialize (Acc _ _ Hq).
  pose proof L as [(f & text & doc & H1 & H2 & H3 & H4) H5 H6 H7 H8].
  destruct (main_serves C p argv f text doc c H1 H2 H3 H4 H5 H6 H7 H8) as (v' & M' & So & SH & EU & Hc & Hu & He & Ha & R & St). rewrite M in M'. injection M' as <-.
  destruct (split_facts _ _ _ sv SH EU _ _ _ sigma lab R Hex H0 HK HC) as (Hrun & HK' & NC & NT & Off & Calls & In_).
  assert (HSh : fair sv listener (dispatch_internal (v_env v)) sigma lab TShell) by (apply HF; discriminate).
  assert (HCt : fair sv listener (dispatch_internal (v_env v)) sigma lab TControl) by (apply HF; discriminate).
  assert (Mine : forall i, asked_stop (seen lab i) -> In (YEvent CONTROL EStop) (seen lab i)).
  { intros i [c' X]. destruct c'; [exfalso|exact X]. destruct (HC i SHELL) as (gs & y & S).
    destruct (proj1 (C110_asked_split _ _ _ sv SH EU _ _ _ _ _ R (Hrun i) (HK' i) SHELL gs y S) X) as (c2 & w2 & q2 & I2 & A2 & T2 & _).
    apply handed_labels in I2 as [-> I2]. apply (HK' i SHELL w2 I2 q2 "shutdown_request" A2 T2). now left. }
  assert (X : exists m, n <= m /\ In (YEvent CONTROL EStop) (seen lab m)).
  { destruct (C109_eventually _ _ _ sv SH EU _ _ _ sigma lab R Hex H0 HSh HCt HK HC CONTROL n) as (m & Lm & [D|(P & _)]); [exists m; auto|].
    destruct (control_rests sv (v_env v) _ _ sigma lab Hex H0 HSh Calls (In_ SHELL) HCt Off (In_ CONTROL) m) as (m' & Lm' & Y). exists m'. split; [lia|].
    destruct Y as [Y|Y].
    - destruct (over_or_stop sv (v_env v) _ _ sigma lab Hex H0 m' (or_introl Y)) as [D|D]; [now destruct (NC m')|auto].
    - destruct (HC m' CONTROL) as (gs & y & S). apply (proj2 (C110_asked_split _ _ _ sv SH EU _ _ _ _ _ R (Hrun m') (HK' m') CONTROL gs y S) Y).
      exists CONTROL, w, q. split; [|split; [exact Acc|exact Hs]]. destruct (SplitLive.obs_prefix lab m m' Lm') as [z ->]. rewrite handed_app. apply in_or_app. left.
      assert (Z : In w (List.map snd (handed_to CONTROL (seen lab m)))) by (destruct P as [z' ->]; apply in_or_app; now left).
      apply in_map_iff in Z as ([c' w'] & <- & Z). pose proof (handed_labels _ _ _ _ Z) as [-> _]. exact Z. }
  destruct X as (m1 & L1 & X).
  destruct (C80_stop _ sv _ _ _ sigma lab Hex H0 HF Calls (In_ SHELL) (In_ CONTROL) Off m1 X) as (m & Lm & [D|D]); [now destruct (NC m)|].
  exists m. split; [lia|]. split; [exact D|].
  destruct (C109_client C p argv c sv L Hsv v M _ _ (Hrun m) (HK' m)) as (user & session & U1 & U2). exists user, session. split; [exact U1|]. intros th.
  destruct (HC m th) as (gs & y & S). destruct (U2 th gs y S) as (said & later & U3 & U4 & _ & U5). exists gs, y. split; [exact S|].
  rewrite U4 in U3; [rewrite app_nil_r in U3; rewrite U3; exact U5|].
  destruct D as (_ & D1 & D2 & _). unfold rests. destruct th; [destruct D1 as [-> | ->]|destruct D2 as [-> | ->]]; exact I.
Qed.
Print Assumptions C110_ends_split.

(** Nothing else ends them. *)
Theorem C110_only_split : forall C p argv c sv, launched C argv c -> server_of p = Some sv -> forall v, main C p argv = Ok v ->
  let listener := fun ch w => dispatch (v_env v) w ch in
  forall sigma lab, execution sv listener (dispatch_internal (v_env v)) sigma lab -> sigma 0 = y_init (v_kernel v) (v_start v) ->
  (forall n ch w, lab n = Some (YHand ch w) -> keeps_to (v_env v) ch w) ->
  (forall n ch, exists gs y, ShippedSpec.session (manner_of p) (targets_of p) (v_env v) fresh (handed_to ch (seen lab n)) gs y) ->
  forall n, y_end (sigma n) <> None -> y_end (sigma n) = Some Exited /\ told_to_stop (v_env v) (handed_to CONTROL (seen lab n)).
Proof.
  intros C p argv c sv L Hsv v M listener sigma lab Hex H0 HK HC n Hn.
  pose proof L as [(f & text & doc & H1 & H2 & H3 & H4) H5 H6 H7 H8].
  destruct (main_serves C p argv f text doc c H1 H2 H3 H4 H5 H6 H7 H8) as (v' & M' & So & SH & EU & Hc & Hu & He & Ha & R & St). rewrite M in M'. injection M' as <-.
  destruct (split_facts _ _ _ sv SH EU _ _ _ sigma lab R Hex H0 HK HC) as (Hrun & HK' & NC & _).
  split; [destruct (y_end (sigma n)) as [[]|] eqn:Q; [reflexivity|now destruct (NC n)|now destruct Hn]|].
  destruct (over_or_stop sv (v_env v) _ _ sigma lab Hex H0 n (or_introl Hn)) as [D|[c' D]]; [now destruct (NC n)|].
  destruct (HC n c') as (gs & y & S). pose proof (proj1 (C110_asked_split _ _ _ sv SH EU _ _ _ _ _ R (Hrun n) (HK' n) c' gs y S) D) as X. destruct c'; [exfalso|exact X].
  destruct X as (c2 & w2 & q2 & I2 & A2 & T2 & _). apply handed_labels in I2 as [-> I2]. apply (HK' n SHELL w2 I2 q2 "shutdown_request" A2 T2). now left.
Qed.
Print Assumptions C110_only_split.

(** ** Examples *)
Lemma bye_stops : says_stop bye.
Proof. split; [eexists; split; reflexivity|]. exists [("restart", JBool true)], true. split; [reflexivity|now right]. Qed.
Lemma bye_asks : asks (p_crypto (shop "me")) shop_config bye (wire_of bye).
Proof. apply asks_wire. right. now left. Qed.
(** The example program: a cell, then a shutdown request. *)
Example C110_asked_ex : In StopRequest (fst shop_run) /\ told_to_stop (v_env shop_serving) (ServerSpec.handed (fst shop_run)) /\ ~ told_to_stop (v_env shop_serving) [(SHELL, wire_of hello)].
Proof.
  destruct (C108_reads _ _ _ _ shop_launched _ shop_serves) as [A _]. split; [vm_compute; auto 300|]. split.
  - exists CONTROL, (wire_of bye), bye. split; [|split; [apply A, bye_asks|exact bye_stops]]. destruct C108_client_ex as [-> _]. cbn. auto.
  - intros (c & w & q & [[= <- <-]|[]] & Hq & Ty & _). specialize (A _ _ (asks_wire hello (or_introl eq_refl))). unfold accepted in *. rewrite A in Hq. injection Hq as <-.
    destruct Ty as (f & E1 & E2). injection E1 as <-. discriminate E2.
Qed.
Definition last_choices : list (choice * nat) := (shop_choices ++ [(GPub, 200); (GMain, 20); (GPub, 20); (GMain, 20); (GHb, 20); (GMain, 20)])%list.
Definition last_path := dpath (fun ch w => dispatch (v_env shop_serving) w ch) (expand last_choices) (d_init (v_kernel shop_serving) (v_start shop_serving)).
Definition last_lab := dlab (fun ch w => dispatch (v_env shop_serving) w ch) (expand last_choices) (d_init (v_kernel shop_serving) (v_start shop_serving)).
Lemma last_handed n : prefix (ServerSpec.handed (observed last_lab n)) [(SHELL, wire_of hello); (CONTROL, wire_of bye)].
Proof.
  destruct (Nat.le_gt_cases n (List.length (expand last_choices))) as [L|L].
  - destruct (Live.obs_prefix last_lab n _ L) as [z Hz]. exists (ServerSpec.handed z). unfold ServerSpec.handed. rewrite <- flat_map_app, <- Hz. unfold last_lab. rewrite dlab_labels. vm_compute. reflexivity.
  - exists []. rewrite app_nil_r. unfold last_lab. rewrite dlab_end, dlab_labels by lia. vm_compute. reflexivity.
Qed.
Example C110_ends_ex : let listener := fun ch w => dispatch (v_env shop_serving) w ch in
  launched (shop "me") shop_argv shop_config /\ plain PExample /\ main (shop "me") PExample shop_argv = Ok shop_serving /\
  executes (acts listener) last_path last_lab /\ last_path 0 = d_init (v_kernel shop_serving) (v_start shop_serving) /\
  (forall a, In a [AMain; APublisher; AHeartbeat] -> just (acts listener) last_path last_lab a) /\
  (forall n, exists gs y, ShippedSpec.session example_manner (fun _ => False) (v_env shop_serving) fresh (ServerSpec.handed (observed last_lab n)) gs y) /\
  asks (p_crypto (shop "me")) shop_config bye (wire_of bye) /\ says_stop bye /\
  ServerSpec.arrived CONTROL (observed last_lab 212) = [wire_of bye] /\ alive (d_pc (last_path 212)) /\ d_pc (last_path (List.length (expand last_choices))) = MExit.
Proof.
  cbv zeta. split; [exact shop_launched|]. split; [now left|]. split; [exact shop_serves|]. split; [apply dpath_executes|]. split; [reflexivity|]. split.
  { intros a [<-|[<-|[<-|[]]]]; (eapply dpath_just; [reflexivity|vm_compute; reflexivity]). }
  split; [intros n; eapply session_prefix; [exact shop_session|apply last_handed]|]. split; [apply bye_asks|]. split; [apply bye_stops|].
  unfold last_lab. rewrite dlab_labels. split; [vm_compute; reflexivity|]. split; [vm_compute; exact I|]. vm_compute. reflexivity.
Qed.
(** The program [test_kernel_shell]: a cell on shell, a shutdown request on control, the four threads in turns. *)
Definition quit_choices : list ychoice := YIn SHELL (wire_of hello) :: YIn CONTROL (wire_of bye) :: alternate 90.
Notation duo_l := (fun c w => dispatch (v_env duo_serving) w c).
Notation duo_i := (dispatch_internal (v_env duo_serving)).
Notation duo_0 := (y_init (v_kernel duo_serving) (v_start duo_serving)).
Definition quit_path := path ShellMain duo_l duo_i quit_choices duo_0.
Definition quit_lab := plab ShellMain duo_l duo_i quit_choices duo_0.
Lemma duo_accepts q : In q [hello; bye] -> accepted (v_env duo_serving) (wire_of q) q.
Proof. intros H. destruct (C108_reads _ _ _ _ shop_launched _ duo_serves) as [A _]. apply A, asks_wire, H. Qed.
Definition bye_gs : list gist := [said_status bye CONTROL "busy"; Said CONTROL "shutdown" (m_header (m_base bye)) (JObj [("restart", JBool true)]);
  Replied CONTROL ["peer"] "shutdown_reply" (m_header (m_base bye)) (JObj [("restart", JBool true)]); said_status bye CONTROL "idle"].
Lemma bye_session (E : env unit) : accepted E (wire_of bye) bye ->
  ShippedSpec.session test_manner duo_T E fresh [(CONTROL, wire_of bye)] bye_gs {| y_count := 0; y_history := []; y_parent := with_parent CONTROL (m_header (m_base bye)) (y_parent fresh) |}.
Proof.
  intros A. refine (se_snoc _ _ _ _ [] [] _ _ _ _ _ (se_nil _ _ _ _) _). refine (re_done _ _ E _ _ _ bye "shutdown_request" (firstn 2 (skipn 1 bye_gs)) _ _ A _ _); [eexists; split; reflexivity|].
  exact (do_shutdown test_manner _ _ CONTROL ["peer"] _ _ _ [("restart", JBool true)] true (or_intror eq_refl)).
Qed.
Lemma quit_handed c n : prefix (handed_to c (seen quit_lab n)) [match c with SHELL => (SHELL, wire_of hello) | CONTROL => (CONTROL, wire_of bye) end].
Proof.
  destruct (Nat.le_gt_cases n (List.length quit_choices)) as [L|L].
  - destruct (SplitLive.obs_prefix quit_lab n _ L) as [z Hz]. exists (handed_to c z). rewrite <- handed_app, <- Hz. unfold quit_lab. rewrite plab_labels. destruct c; vm_compute; reflexivity.
  - exists []. rewrite app_nil_r. unfold quit_lab. rewrite plab_labels, firstn_all2 by lia. destruct c; vm_compute; reflexivity.
Qed.
Lemma quit_sessions n c : exists gs y, ShippedSpec.session test_manner duo_T (v_env duo_serving) fresh (handed_to c (seen quit_lab n)) gs y.
Proof.
  destruct c; (eapply session_prefix; [|apply quit_handed]); [apply shell_session, duo_accepts; now left|apply bye_session, duo_accepts; right; now left].
Qed.
Lemma quit_keeps n c w : quit_lab n = Some (YHand c w) -> keeps_to (v_env duo_serving) c w.
Proof.
  intros H. assert (X : In (c, w) (handed_to c (seen quit_lab (S n)))).
  { cbn [seen]. rewrite H. rewrite handed_app. apply in_or_app. right. cbn. destruct c; now left. }
  destruct (quit_handed c (S n)) as [z Hz]. assert (Y : In (c, w) [match c with SHELL => (SHELL, wire_of hello) | CONTROL => (CONTROL, wire_of bye) end]) by (rewrite Hz; apply in_or_app; now left).
  destruct Y as [Y|[]]. destruct c; injection Y as <-; [apply (keeps_one _ _ _ hello "execute_request"); [apply duo_accepts; now left|..]|apply (keeps_one _ _ _ bye "shutdown_request"); [apply duo_accepts; right; now left|..]];
    try (eexists; split; reflexivity); intros Z; cbn in Z; intuition discriminate.
Qed.
Example C110_ends_split_ex :
  launched (shop "me") shop_argv shop_config /\ server_of PTestShell = Some ShellMain /\ main (shop "me") PTestShell shop_argv = Ok duo_serving /\
  execution ShellMain duo_l duo_i quit_path quit_lab /\ quit_path 0 = duo_0 /\ (forall t, t <> TEnv -> fair ShellMain duo_l duo_i quit_path quit_lab t) /\
  (forall n ch w, quit_lab n = Some (YHand ch w) -> keeps_to (v_env duo_serving) ch w) /\
  (forall n ch, exists gs y, ShippedSpec.session test_manner duo_T (v_env duo_serving) fresh (handed_to ch (seen quit_lab n)) gs y) /\
  came CONTROL (seen quit_lab 2) = [wire_of bye] /\ y_end (quit_path 2) = None /\ y_end (quit_path (List.length quit_choices)) = Some Exited.
Proof.
  split; [exact shop_launched|]. split; [reflexivity|]. split; [exact duo_serves|]. split; [apply path_execution|]. split; [reflexivity|]. split.
  { intros t Ht. apply path_fair; [exact Ht|]. destruct t; try (now destruct Ht); vm_compute; reflexivity. }
  split; [exact quit_keeps|]. split; [exact quit_sessions|]. unfold quit_lab. rewrite plab_labels. vm_compute. auto.
Qed.

(** A shutdown request on the shell socket of a split server: it is answered, and the program goes on for ever unless a control message comes. *)
Definition left_choices : list ychoice := YIn SHELL (wire_of bye) :: alternate 60.
Definition left_path := path ShellMain duo_l duo_i left_choices duo_0.
Definition left_lab := plab ShellMain duo_l duo_i left_choices duo_0.
Theorem C110_shell_refuted : exists C p argv c sv v, launched C argv c /\ server_of p = Some sv /\ main C p argv = Ok v /\
  exists sigma lab, execution sv (fun ch w => dispatch (v_env v) w ch) (dispatch_internal (v_env v)) sigma lab /\ sigma 0 = y_init (v_kernel v) (v_start v) /\
  (forall t, t <> TEnv -> fair sv (fun ch w => dispatch (v_env v) w ch) (dispatch_internal (v_env v)) sigma lab t) /\
  exists n w q, asks (p_crypto C) c q w /\ says_stop q /\ came SHELL (seen lab n) = [w] /\ handed_to SHELL (seen lab n) = [(SHELL, w)] /\ List.length (replied_by SHELL SHELL (seen lab n)) = 1 /\
    In (YEvent SHELL EStop) (seen lab n) /\ forall m, n <= m -> y_end (sigma m) = None.
Proof.
  exists (shop "me"), PTestShell, shop_argv, shop_config, ShellMain, duo_serving. split; [exact shop_launched|]. split; [reflexivity|]. split; [exact duo_serves|].
  exists left_path, left_lab. split; [apply path_execution|]. split; [reflexivity|]. split.
  { intros t Ht. apply path_fair; [exact Ht|]. destruct t; try (now destruct Ht); vm_compute; reflexivity. }
  exists (List.length left_choices), (wire_of bye), bye. split; [exact bye_asks|]. split; [exact bye_stops|]. unfold left_lab. rewrite plab_labels, firstn_all.
  split; [vm_compute; reflexivity|]. split; [vm_compute; reflexivity|]. split; [vm_compute; reflexivity|]. split.
  - apply events_stop. vm_compute. auto 20.
  - intros m Hm. unfold left_path. rewrite path_end by exact Hm. vm_compute. reflexivity.
Qed.
Print Assumptions C110_shell_refuted.
(** The reply is sent, but what is published about the request may be lost: the publisher thread leaves its loop with the first message it forwards after
    it was told to stop. Here only the start message goes out. *)
Definition hasty_choices : list (choice * nat) := [(GArrive CONTROL (wire_of bye), 1); (GMain, 150); (GPub, 20); (GMain, 20); (GHb, 20); (GMain, 20)].
Definition hasty_path := dpath (fun ch w => dispatch (v_env shop_serving) w ch) (expand hasty_choices) (d_init (v_kernel shop_serving) (v_start shop_serving)).
Definition hasty_lab := dlab (fun ch w => dispatch (v_env shop_serving) w ch) (expand hasty_choices) (d_init (v_kernel shop_serving) (v_start shop_serving)).
Theorem C110_broadcast_refuted : exists C p argv c v, launched C argv c /\ plain p /\ main C p argv = Ok v /\
  exists sigma lab, executes (acts (fun ch w => dispatch (v_env v) w ch)) sigma lab /\ sigma 0 = d_init (v_kernel v) (v_start v) /\
  (forall a, In a [AMain; APublisher; AHeartbeat] -> just (acts (fun ch w => dispatch (v_env v) w ch)) sigma lab a) /\
  exists n w q, asks (p_crypto C) c q w /\ says_stop q /\ ServerSpec.handed (observed lab n) = [(CONTROL, w)] /\ LiveSpec.ended (sigma n) /\
    List.length (sent_through CONTROL (observed lab n)) = 1 /\ List.length (ServerSpec.published (observed lab n)) = 3 /\ f_out (m_pub (d_mem (sigma n))) = [v_start v].
Proof.
  exists (shop "me"), PExample, shop_argv, shop_config, shop_serving. split; [exact shop_launched|]. split; [now left|]. split; [exact shop_serves|].
  exists hasty_path, hasty_lab. split; [apply dpath_executes|]. split; [reflexivity|]. split.
  { intros a [<-|[<-|[<-|[]]]]; (eapply dpath_just; [reflexivity|vm_compute; reflexivity]). }
  exists (List.length (expand hasty_choices)), (wire_of bye), bye. split; [exact bye_asks|]. split; [exact bye_stops|]. unfold hasty_lab. rewrite dlab_labels. vm_compute. auto 10.
Qed.
Print Assumptions C110_broadcast_refuted.
