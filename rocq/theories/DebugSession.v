(** The debugger, the client and the adapter together. *)
From Verif Require Import Base BaseFacts Json JsonText JsonTextProofs JsonParseProofs Utf8 Auth Message MessageProofs Dap DapSpec DapProofs DapQueue DapMain DapAttach
  Debugger DebuggerSpec DebuggerProofs DebuggerState DebuggerRequests DebuggerReplies DebuggerLock DapSessionSpec DapSession.

(** ** Replies match requests *)
Lemma snoc_split {A} (l : list A) a l1 x l2 : (l ++ [a])%list = (l1 ++ x :: l2)%list -> (l = l1 /\ a = x /\ l2 = []) \/ exists u, l = (l1 ++ x :: u)%list.
Proof.
  intros E. destruct (exists_last (l := (x :: l2)%list)) as (u & z & Eu); [discriminate|]. rewrite Eu, app_assoc in E. apply app_inj_tail in E as [E1 E2]. subst z.
  destruct u as [|y u]; [injection Eu as -> ->; rewrite app_nil_r in E1; auto|]. injection Eu as <- ->. right. exists u. auto.
Qed.
Lemma alternates_prefix l b : alternates l b -> forall l1 t l2, l = (l1 ++ AReply t :: l2)%list -> alternates l1 true.
Proof.
  induction 1 as [|l f H IH|l t H IH|l a o H IH N1 N2]; intros l1 x l2 Eq; [now destruct l1| | |];
    apply snoc_split in Eq as [(-> & E & _)|(u & Eu)]; eauto; try discriminate. now elim (N2 x).
Qed.
Lemma reply_at l : forall k t, nth_error (replies l) k = Some t -> exists l1 l2, l = (l1 ++ AReply t :: l2)%list /\ List.length (replies l1) = k.
Proof.
  induction l as [|a l IH]; intros k t H; [destruct k; discriminate|].
  assert (G : forall n, nth_error (replies l) n = Some t -> exists l1 l2, (a :: l)%list = (l1 ++ AReply t :: l2)%list /\ List.length (replies l1) = List.length (replies [a]) + n).
  { intros n Hn. apply IH in Hn as (l1 & l2 & -> & L). exists (a :: l1), l2. split; auto. change (a :: l1) with ([a] ++ l1)%list. rewrite replies_app, app_length. lia. }
  change (a :: l) with ([a] ++ l)%list in H. rewrite replies_app in H.
  destruct a; cbn in H; try (apply G in H as (l1 & l2 & Q & L); exists l1, l2; split; [exact Q|exact L]).
  destruct k; cbn in H; [injection H as ->; exists [], l; auto|]. apply G in H as (l1 & l2 & Q & L). exists l1, l2. split; [exact Q|exact L].
Qed.
Theorem replies_match l b : alternates l b -> answers_asked l -> answers_once l ->
  forall k t, nth_error (replies l) k = Some t -> exists f, nth_error (requests l) k = Some f /\ answers_frame f t.
Proof.
  intros Al As On k. induction k as [k IH] using lt_wf_ind. intros t Hk.
  destruct (reply_at _ _ _ Hk) as (l1 & l2 & El & Lk). destruct (As l1 t l2 El) as (f & Hin & Hf).
  pose proof (alternates_prefix _ _ Al _ _ _ El) as A1. apply alternates_count in A1. rewrite Lk in A1.
  apply In_nth_error in Hin as (i & Hi). assert (Li : i < S k). { assert (i < List.length (requests l1)) by (apply nth_error_Some; congruence). lia. }
  assert (Hl : nth_error (requests l) i = Some f). { rewrite El, requests_app, nth_error_app1; auto. apply nth_error_Some. congruence. }
  destruct (Nat.eq_dec i k) as [->|Ni]; [eauto|]. exfalso.
  assert (Hr : exists t', nth_error (replies l) i = Some t').
  { destruct (nth_error (replies l) i) eqn:X; [eauto|]. apply nth_error_None in X. assert (k < List.length (replies l)) by (apply nth_error_Some; congruence). lia. }
  destruct Hr as (t' & Ht'). destruct (IH i ltac:(lia) t' Ht') as (f' & Hf' & Af'). assert (f' = f) by congruence. subst f'.
  specialize (On i k t' t f Ht' Hk (nth_error_In _ _ Hl) Af' Hf). lia.
Qed.

(** ** The debugger's side *)
Lemma sent_app a b : sent (a ++ b) = (sent a ++ sent b)%list.
Proof. apply flat_map_app. Qed.
Lemma received_app a b : received (a ++ b) = (received a ++ received b)%list.
Proof. apply flat_map_app. Qed.
Lemma phase_count l : forall w w', phase w l = Some w' -> List.length (sent l) + (if w then 1 else 0) = List.length (received l) + (if w' then 1 else 0).
Proof.
  induction l as [|a l IH]; intros w w' H; cbn in H; [injection H as ->; reflexivity|].
  destruct a; try (destruct w; try discriminate); apply IH in H; unfold sent, received in *; cbn; lia.
Qed.
Lemma phase_silent b : forall y c, phase true (b ++ y :: c) <> None -> (forall t, ~ In (DRecv t) b) -> sent b = [] /\ received b = [].
Proof.
  induction b as [|x b IH]; intros y c H N; auto. destruct x; cbn in H; try (now elim H).
  - elim (N text). now left.
  - apply (IH y c); auto. intros t Ht. apply (N t). now right.
Qed.
Lemma pair_at l a m f b t e : phase false l <> None -> l = (a ++ DSend m f :: b ++ DRecv t :: e)%list -> (forall t', ~ In (DRecv t') b) ->
  exists k, nth_error (sent l) k = Some f /\ nth_error (received l) k = Some t.
Proof.
  intros P -> N. rewrite phase_app in P. destruct (phase false a) as [w|] eqn:Pa; [|now elim P]. cbn [phase] in P. destruct w; [now elim P|].
  destruct (phase_silent _ _ _ P N) as [S R]. apply phase_count in Pa. exists (List.length (sent a)).
  change (DSend m f :: b ++ DRecv t :: e)%list with ([DSend m f] ++ b ++ [DRecv t] ++ e)%list. rewrite !sent_app, !received_app, S, R. cbn [app sent received flat_map].
  split; [rewrite nth_error_app2, Nat.sub_diag by lia; reflexivity|]. replace (List.length (sent a)) with (List.length (received a)) by lia. rewrite nth_error_app2, Nat.sub_diag by lia. reflexivity.
Qed.
Lemma frame_inj a b : dap_frame a = dap_frame b -> a = b.
Proof.
  intros H. destruct (frame_sep a) as (p & F1 & F2), (frame_sep b) as (q & G1 & G2). rewrite H in F1. rewrite F1 in G1. injection G1 as <-. rewrite H in F2. congruence.
Qed.
Lemma prefix_nth {A} (l l' : list A) k x : prefix l l' -> nth_error l k = Some x -> nth_error l' k = Some x.
Proof. intros (c & ->) H. rewrite nth_error_app1; auto. apply nth_error_Some. congruence. Qed.
Theorem linked_match C net l c : phase false l <> None -> linked C net l c -> answers_asked (c_log c) -> answers_once (c_log c) ->
  forall a m content b t e, l = (a ++ DSend m (dap_frame content) :: b ++ DRecv t :: e)%list -> (forall t', ~ In (DRecv t') b) ->
  exists m' j, parse content = Ok m' /\ parse t = Ok j /\ response_to m' j.
Proof.
  intros P (connect & c0 & St & Se & Pr) As On a m content b t e El N. destruct (pair_at _ _ _ _ _ _ _ P El N) as (k & Ks & Kr).
  destruct (lock_step C net _ _ c0 c St Se) as (Al & connect' & Ec). injection Ec as _ Ec.
  destruct (replies_match _ _ Al As On k t (prefix_nth _ _ _ _ Pr Kr)) as (f & Kf & content' & m' & j & Ef & Pc & Pt & R).
  assert (X : nth_error (sent l) k = Some f) by (rewrite Ec, nth_error_app1; auto; apply nth_error_Some; congruence).
  rewrite X in Ks. injection Ks as ->. apply frame_inj in Ef as <-. eauto.
Qed.

(** ** Requests of the debugger *)
Lemma forward_sends E m d d' r : forward_message E m d = (d', Done r) ->
  exists content evs t, dump EStrict m = Ok content /\ d_log d' = (d_log d ++ DSend m (dap_frame content) :: evs ++ [DRecv t])%list /\ (forall t', ~ In (DRecv t') evs) /\ parse t = Ok r.
Proof.
  unfold forward_message. intros R. apply gbind_done in R as (d1 & content & R1 & R). apply glift_done in R1 as [-> D]. apply gbind_done in R as (d2 & [] & [= <-] & R).
  destruct (dn_reply E _) as [evs [text|]].
  - apply gbind_done in R as (d3 & [] & R3 & R). destruct (adds_deliver E evs _ _ _ R3) as (s & L & F). apply gbind_done in R as (d4 & [] & [= <-] & R). apply glift_done in R as [-> R].
    exists content, s, text. split; auto. cbn. rewrite L. cbn. rewrite <- !app_assoc. split; auto. split; auto. intros t' Ht. rewrite Forall_forall in F. apply F in Ht. exact Ht.
  - apply gbind_done in R as (d3 & [] & _ & R). discriminate.
Qed.

(** The handlers that change the adapter's reply change its body only. *)
Lemma jset_other k v j j' k' : jset k v j = Ok j' -> k' <> k -> jfield k' j' = jfield k' j.
Proof.
  intros H N. destruct j; cbn in H; try discriminate; injection H as <-; cbn.
  - destruct (String.eqb_spec k' k); [contradiction|reflexivity].
  - now apply mfind_mset_other.
Qed.
Lemma in_body_other key reply v put v' r k : in_body key reply = Ok (v, put) -> put v' = Ok r -> k <> "body" -> jfield k r = jfield k reply.
Proof.
  unfold in_body. destruct (jget_mut "body" reply) as [[body reply']| |] eqn:B; try discriminate. cbn [bind]. destruct (jget_mut key body) as [[v0 body']| |] eqn:K; try discriminate. cbn [bind].
  intros [= <- <-] H N. destruct (jset key v' body') as [b| |]; try discriminate. cbn [bind] in H. rewrite (jset_other _ _ _ _ _ H N).
  apply jget_mut_field in B as (_ & B & _). now apply B.
Qed.
Lemma stack_frames_other reply r k : stack_frames reply = Ok r -> k <> "body" -> jfield k r = jfield k reply.
Proof.
  unfold stack_frames. destruct (in_body "stackFrames" reply) as [[frames put]| |] eqn:B; try discriminate. cbn [bind]. intros H N.
  destruct frames as [| | | | |l|[|]]; try discriminate; try (eapply in_body_other; eauto; fail).
  destruct (strip_frames l); try discriminate. cbn [bind] in H. eapply in_body_other; eauto.
Qed.
Lemma page_other m reply r k : page m reply = Ok r -> k <> "body" -> jfield k r = jfield k reply.
Proof.
  unfold page. destruct (jget "arguments" m) as [args| |]; try discriminate. cbn [bind]. cbn zeta.
  destruct (match jlookup "start" args with Some v => get_int v | None => Ok 0%Z end) as [start| |]; try discriminate. cbn [bind].
  destruct (match jlookup "count" args with Some v => get_int v | None => Ok 0%Z end) as [count| |]; try discriminate. cbn [bind].
  destruct ((start =? 0)%Z && (count =? 0)%Z); [intros [= <-]; auto|].
  match goal with |- context [bind ?x _] => destruct x as [sum| |]; try discriminate end. cbn [bind].
  destruct (in_body "variables" reply) as [[old put]| |] eqn:B; try discriminate. cbn [bind]. cbn zeta.
  destruct (put old) as [reply1| |] eqn:P; try discriminate. cbn [bind]. destruct (jget_mut "body" reply1) as [[body reply2]| |] eqn:G; try discriminate. cbn [bind].
  destruct (jerase "variables" body) as [b1| |]; try discriminate. cbn [bind]. destruct (window _ _ _) as [l| |]; try discriminate. cbn [bind].
  destruct (jset "variables" _ b1) as [b2| |]; try discriminate. cbn [bind]. intros H N. rewrite (jset_other _ _ _ _ _ H N).
  apply jget_mut_field in G as (_ & G & _). rewrite (G k N). eapply in_body_other; eauto.
Qed.

Definition no_start (a : dact) : Prop := match a with DStart _ => False | _ => True end.
(** [m] was sent, and [r] is the adapter's reply except for its body. *)
Definition sends_reply (m r : json) (l : list dact) : Prop :=
  exists pre content evs t reply post, l = (pre ++ DSend m (dap_frame content) :: evs ++ DRecv t :: post)%list /\ dump EStrict m = Ok content /\
    (forall t', ~ In (DRecv t') evs) /\ Forall no_start evs /\ Forall no_start post /\ parse t = Ok reply /\ forall k, k <> "body" -> jfield k r = jfield k reply.
Lemma forward_reply E m d d' r : forward_message E m d = (d', Done r) -> sends_reply m r (d_log d').
Proof.
  unfold forward_message. intros R. apply gbind_done in R as (d1 & content & R1 & R). apply glift_done in R1 as [-> D]. apply gbind_done in R as (d2 & [] & [= <-] & R).
  destruct (dn_reply E _) as [evs [text|]].
  - apply gbind_done in R as (d3 & [] & R3 & R). destruct (adds_deliver E evs _ _ _ R3) as (s & L & F). apply gbind_done in R as (d4 & [] & [= <-] & R). apply glift_done in R as [-> R].
    exists (d_log d), content, s, text, r, []. cbn. rewrite L. cbn. rewrite <- !app_assoc. split; auto. split; auto. split; [|split; [|split; [constructor|auto]]].
    + intros t' Ht. rewrite Forall_forall in F. apply F in Ht. exact Ht.
    + eapply Forall_impl; [|exact F]. intros a. destruct a; cbn; auto.
  - apply gbind_done in R as (d3 & [] & _ & R). discriminate.
Qed.
Lemma sends_body m r r' l : sends_reply m r l -> (forall k, k <> "body" -> jfield k r' = jfield k r) -> sends_reply m r' l.
Proof. intros (pre & content & evs & t & reply & post & L & D & N & F1 & F2 & P & K) H. exists pre, content, evs, t, reply, post. repeat (split; auto). intros k Nk. rewrite H; auto. Qed.
Lemma sends_more m r l s : sends_reply m r l -> Forall no_start s -> sends_reply m r (l ++ s).
Proof.
  intros (pre & content & evs & t & reply & post & L & D & N & F1 & F2 & P & K) H. exists pre, content, evs, t, reply, (post ++ s)%list. split.
  { rewrite L, <- app_assoc. cbn. rewrite <- app_assoc. reflexivity. }
  repeat (split; auto). apply Forall_app. auto.
Qed.
Lemma answers_response m b r : answers m b r -> response_to m r.
Proof. intros (A & B & C & _). repeat split; auto. Qed.
Lemma response_response m b rest r : response m b rest = Ok r -> (rest = [] \/ (exists v, rest = [("body", v)]) \/ exists v w, rest = [("message", v); ("body", w)]) -> response_to m r.
Proof.
  intros H R. apply response_ok in H as (seq & cmd & S & C & ->). unfold response_to. rewrite S, C.
  destruct R as [->|[(v & ->)|(v & w & ->)]]; repeat split; reflexivity.
Qed.
Lemma stop_no_start E d d' o : do_stop E d = (d', o) -> exists s, d_log d' = (d_log d ++ s)%list /\ Forall no_start s.
Proof.
  revert d d' o. change (adds no_start (do_stop E)).
  intros d d' o. unfold do_stop. destruct (dn_stop E (d_log d)) as [evs r]. revert d d' o. match goal with |- forall d d' o, ?p d = _ -> _ => change (adds no_start p) end.
  apply adds_bind; [eapply adds_weak; [|apply adds_deliver]; intros a; destruct a; cbn; auto|intros _]. apply adds_bind; [apply adds_lift|intros _].
  intros d d' o [= <- _]. exists [DStop]. split; auto. constructor; [exact I|constructor].
Qed.
(** A request that the started debugger handles itself or with the adapter. *)
Lemma handled_reply E name m d d' r : unregistered E name ->
  (match mfind name (handlers E true) with Some k => k m | None => forward_message E m end) d = (d', Done r) ->
  response_to m r \/ sends_reply m r (d_log d').
Proof.
  intros U H. rewrite (handlers_builtin E true name (U true)) in H. unfold builtin in H.
  destruct (String.eqb name "variables").
  { right. unfold variables_request in H. apply gbind_done in H as (d1 & reply & H1 & H). apply glift_done in H as [-> H]. eapply sends_body; [eapply forward_reply; eauto|]. intros k N. eapply page_other; eauto. }
  destruct (String.eqb name "stackTrace").
  { right. unfold stack_trace_request in H. apply gbind_done in H as (d1 & reply & H1 & H). apply glift_done in H as [-> H]. eapply sends_body; [eapply forward_reply; eauto|]. intros k N. eapply stack_frames_other; eauto. }
  destruct (String.eqb name "source").
  { left. unfold source_request in H. apply gbind_done in H as (d1 & path & _ & H). destruct (open_in (d_fs d1) path); apply glift_done in H as [-> H];
      (eapply response_response; [exact H|eauto]). }
  destruct (String.eqb name "setBreakpoints").
  { right. unfold set_breakpoints_request in H. apply gbind_done in H as (d1 & src & _ & H). apply gbind_done in H as (d2 & [] & _ & H). apply gbind_done in H as (d3 & bp & _ & H).
    apply gbind_done in H as (d4 & [] & _ & H). eapply forward_reply; eauto. }
  destruct (String.eqb name "dumpCell").
  { left. unfold dump_cell_request in H. apply gbind_done in H as (d1 & code & _ & H). apply gbind_done in H as (d2 & f & _ & H). apply gbind_done in H as (d3 & [] & _ & H).
    apply glift_done in H as [-> H]. eapply response_response; [exact H|eauto]. }
  right. eapply forward_reply; eauto.
Qed.
Lemma process_reply E h m name d d' r : is_request name m -> unregistered E name -> d_started d = true \/ name = "initialize" \/ name = "debugInfo" ->
  process_request E h m d = (d', Done r) -> response_to m r \/ sends_reply m r (d_log d').
Proof.
  intros C U Hs H. unfold process_request in H. apply gbind_done in H as (d0 & cmd & H0 & H). apply glift_done in H0 as [-> H0]. apply jget_ok in H0.
  unfold is_request in C. rewrite H0 in C. injection C as ->.
  apply gbind_done in H as (d1 & reply & H1 & H). apply gbind_done in H as (d2 & name' & H2 & H). apply glift_done in H2 as [-> [= <-]].
  apply gbind_done in H as (d3 & r3 & H3 & H). apply gbind_done in H as (d4 & [] & H4 & H). injection H as <- <-.
  assert (F : response_to m r3 \/ sends_reply m r3 (d_log d3)).
  { rewrite (handlers_builtin E false name (U false)) in H3. unfold builtin in H3. destruct (String.eqb name "debugInfo") eqn:Ei.
    - left. apply debug_info_done in H3 as (_ & A & _). eapply answers_response; eauto.
    - destruct (d_started d1) eqn:S1.
      + apply gbind_done in H3 as (d5 & [] & _ & H3). eapply handled_reply; eauto.
      + left. injection H3 as <- <-. cbn [json_eqb] in H1. destruct (String.eqb name "initialize") eqn:En.
        * apply String.eqb_eq in En as ->. unfold do_start in H1. destruct (d_started d) eqn:Sd; [injection H1 as <- <-; congruence|].
          destruct (dn_start E (d_log d)) as [evs q]. apply gbind_done in H1 as (d5 & [] & _ & H1). apply gbind_done in H1 as (d6 & ok & _ & H1). apply gbind_done in H1 as (d7 & [] & [= <-] & H1).
          destruct ok; [injection H1 as <- <-; discriminate S1|]. apply glift_done in H1 as [_ H1]. destruct (jget "seq" m) as [seq| |] eqn:Sq; try discriminate. injection H1 as <-.
          apply jget_ok in Sq. unfold response_to. rewrite Sq, H0. repeat split.
        * injection H1 as <- <-. exfalso. destruct Hs as [Hs|[Hs|Hs]]; [congruence|subst; discriminate|subst; discriminate]. }
  destruct F as [F|F]; [auto|right]. cbn [json_eqb] in H4. destruct (String.eqb name "disconnect"); [|injection H4 as <-; exact F].
  destruct (stop_no_start E _ _ _ H4) as (s & -> & Fs). now apply sends_more.
Qed.
Theorem request_matched E fs l d h m name d' r C net before seg c :
  history E (d_init fs) l d -> all_answered (d_log d) -> is_request name m -> unregistered E name -> d_started d = true \/ name = "initialize" \/ name = "debugInfo" -> jgood m = true ->
  process_request E h m d = (d', Done r) -> d_log d' = (before ++ DStart true :: seg)%list ->
  linked C net seg c -> answers_asked (c_log c) -> answers_once (c_log c) -> response_to m r.
Proof.
  intros Hh Al Cm U Hs G R L Lk As On. destruct (process_reply E h m name d d' r Cm U Hs R) as [H|(pre & content & evs & t & reply & post & Ld & D & N & F1 & F2 & Pt & K)]; auto.
  assert (P : phase false (d_log d) = Some false).
  { destruct (phase false (d_log d)) as [w|] eqn:P; [|now elim (locked_history E (d_init fs) l d eq_refl Hh)]. apply phase_count in P. unfold all_answered in Al. destruct w; [lia|reflexivity]. }
  assert (P' : phase false (d_log d') <> None) by (destruct (locked_process E h m _ _ _ R ltac:(discriminate) P) as [X|[X _]]; congruence).
  assert (Ps : phase false seg <> None).
  { rewrite L, phase_app in P'. destruct (phase false before) as [w|]; [|now elim P']. cbn [phase] in P'. destruct w; [now elim P'|exact P']. }
  assert (X : exists x, seg = (x ++ DSend m (dap_frame content) :: evs ++ DRecv t :: post)%list).
  { rewrite L in Ld. assert (Ns : ~ In (DStart true) (DSend m (dap_frame content) :: evs ++ DRecv t :: post)).
    { intros [I|I]; [discriminate|]. apply in_app_iff in I as [I|[I|I]]; [|discriminate|]; [rewrite Forall_forall in F1; exact (F1 _ I)|rewrite Forall_forall in F2; exact (F2 _ I)]. }
    revert before L Ld. clear -Ns. generalize (DSend m (dap_frame content) :: evs ++ DRecv t :: post)%list Ns. intros tail Ns' before _ Ld. clear Ns.
    revert pre Ld. induction before as [|y before IH]; intros pre Ld.
    - destruct pre as [|z pre]; cbn in Ld; [subst; elim Ns'; now left|]. injection Ld as _ ->. eauto.
    - destruct pre as [|z pre]; cbn in Ld; [subst tail; elim Ns'; right; apply in_elt|]. injection Ld as _ Ld. eauto. }
  destruct X as (x & X). destruct (linked_match C net seg c Ps Lk As On _ _ _ _ _ _ X N) as (m' & j & Pc & Pj & (R1 & R2 & R3)).
  assert (m' = m). { assert (Pm : parse content = Ok m) by (eapply parse_dump; [exact G| |exact D]; apply dump_strict_some; exists content; now apply dump_ok). congruence. }
  subst m'. assert (j = reply) by congruence. subst j. unfold response_to. rewrite !K by discriminate. auto.
Qed.
