(** Whole sessions of the debug adapter client. *)
From Verif Require Import Base BaseFacts Json JsonText JsonTextProofs JsonParseProofs Utf8 Auth Message MessageProofs Dap DapSpec DapProofs DapQueue DapMain DapAttach DapSessionSpec.

Lemma dbind_done {A B} (p : D A) (f : A -> D B) c c' b : dbind p f c = (c', Done b) -> exists c1 a, p c = (c1, Done a) /\ f a c1 = (c', Done b).
Proof. unfold dbind. destruct (p c) as [c1 [a|e|w|]]; try discriminate. eauto. Qed.
Lemma dlift_done {A} (r : res A) c c' a : dlift r c = (c', Done a) -> c' = c /\ r = Ok a.
Proof. unfold dlift. destruct r; cbn; intros [= <- ?]; subst; auto. Qed.

(** ** The queue when no reply is owed holds events only *)
Lemma dispatched_event raw j : dispatched raw (AEvent j) -> an_event raw.
Proof. intros (i & P & [[H _]|[_ H]]); [|discriminate]. exists i. auto. Qed.
Lemma process_unowed E q : forall c c', c_owed c = false -> process_queue E q c = (c', Done tt) -> Forall an_event q /\ c_owed c' = false.
Proof.
  induction q as [|raw q IH]; intros c c' Ho H; cbn [process_queue] in H; [injection H as <-; auto|].
  destruct (process_message E raw (set_queue (raw :: q) c)) as [c1 [[]| | |]] eqn:M; try discriminate.
  destruct (process_message_ok E raw _ _ M) as (a & n & D & _ & _ & _ & _ & _ & Oa). cbn [c_owed set_queue] in Oa.
  assert (A : an_event raw /\ c_owed c1 = false).
  { destruct D as (j & P & [[Ev ->]|[Ev ->]]); [|exfalso; destruct Oa; congruence]. split; [exists j; auto|congruence]. }
  destruct A as [A O1]. destruct (IH _ _ O1 H). auto.
Qed.

(** ** One wait *)
Lemma wait_one type key value c c' j bodies rest : (type = "event" /\ key = "event" \/ type = "response" /\ key = "command") ->
  dap_stream bodies (sconcat (c_net c) +++ rest) -> Forall protocol_message (c_queue c ++ bodies) -> c_stopped c = [] ->
  at_most_one (is_named type key value) bodies ->
  wait_for_message (is_message type key value) c = (c', Done j) ->
  exists raw b1 b2, parse raw = Ok j /\ named type key value j /\ bodies = (b1 ++ b2)%list /\ without raw (c_queue c ++ b1) (c_queue c') /\
    c_stopped c' = [] /\ dap_stream b2 (sconcat (c_net c') +++ rest) /\ same_rest c c'.
Proof.
  intros K Hs Hp Hst A W.
  assert (Df : Forall (defined parse (is_message type key value)) (c_queue c ++ bodies)).
  { eapply Forall_impl; [|exact Hp]. intros r Hr. apply protocol_defined; auto. }
  apply Forall_app in Df as [D1 D2].
  destruct (wait_keeps (is_message type key value) c bodies rest Hs D1 D2 Hst) as (c2 & o & E & R & O).
  { eapply at_most_one_incl; [|exact A]. intros r (i & M). apply meets_named in M. exists i. exact M. }
  rewrite W in E. injection E as <- <-. destruct O as [[O _]|(i & raw & b1 & b2 & [= <-] & M & -> & Wo & S & D)]; [discriminate|].
  apply meets_named in M as [P N]. exists raw, b1, b2. auto 10.
Qed.

(** ** The handshake *)
Lemma at_most_tail {A} (P : A -> Prop) l l' : at_most_one P (l ++ l') -> at_most_one P l'.
Proof. intros H a x b y d ->. apply (H (l ++ a)%list x b y d). now rewrite app_assoc. Qed.
Lemma protocol_tail raw (l l' r : list string) : without raw l l' -> Forall protocol_message (l ++ r) -> Forall protocol_message (l' ++ r).
Proof. intros W. apply protocol_without with (raw := raw). now apply without_app_r. Qed.
Lemma init_session E c c' bodies rest : handle_init_sequence E c = (c', Done tt) ->
  c_queue c = [] -> c_stopped c = [] -> dap_stream bodies (sconcat (c_net c) +++ rest) -> adapter_stream bodies ->
  exists h b2 attached t init conf l1 l2 new, bodies = (h ++ b2)%list /\ dap_stream b2 (sconcat (c_net c') +++ rest) /\ c_stopped c' = [] /\
    is_initialized init /\ is_configured conf /\ is_attached attached /\ without init h l1 /\ without conf l1 l2 /\ without attached l2 (c_queue c') /\
    same_value attached t /\ c_log c' = (c_log c ++ new)%list /\ routed new = [AReply t] /\ c_owed c' = false /\ c_attach c' = c_attach c.
Proof.
  intros H Hq Hst Hs (Hp & A1 & A2 & A3). unfold handle_init_sequence in H.
  apply dbind_done in H as (c1 & init & W1 & H).
  destruct (wait_one "event" "event" "initialized" c c1 init bodies rest (or_introl (conj eq_refl eq_refl)) Hs ltac:(now rewrite Hq) Hst A1 W1)
    as (raw_i & h1 & r1 & P1 & N1 & -> & X1 & S1 & D1 & R1). rewrite Hq in X1. cbn [app] in X1.
  apply dbind_done in H as (c1' & [seq init'] & H1 & H). apply dlift_done in H1 as [-> _].
  apply dbind_done in H as (c1' & seq2 & H1 & H). apply dlift_done in H1 as [-> _].
  apply dbind_done in H as (c1' & seq3 & H1 & H). apply dlift_done in H1 as [-> _].
  apply dbind_done in H as (c2 & [] & H1 & H).
  assert (Q2 : quiet_step c1 c2).
  { pose proof (quiet_request (jobj [("type", JStr "request"); ("seq", JInt seq3); ("command", JStr "configurationDone")]) c1) as Q. rewrite H1 in Q. exact Q. }
  destruct Q2 as ((K21 & K22 & K23 & K24 & K25 & K26) & Q21 & Q22 & Q23 & n2 & L2 & N2).
  pose proof (protocol_tail _ _ _ _ X1 Hp) as P2.
  apply dbind_done in H as (c3 & conf & W3 & H).
  destruct (wait_one "response" "command" "configurationDone" c2 c3 conf r1 rest (or_intror (conj eq_refl eq_refl)) ltac:(now rewrite K21) ltac:(now rewrite Q21) ltac:(now rewrite K26)
    (at_most_tail _ _ _ A2) W3) as (raw_c & h2 & r2 & P3 & N3 & -> & X3 & S3 & D3 & R3). rewrite Q21 in X3.
  rewrite app_assoc in P2. pose proof (protocol_tail _ _ _ _ X3 P2) as P4.
  apply dbind_done in H as (c4 & resp & W4 & H).
  destruct (wait_one "response" "command" "attach" c3 c4 resp r2 rest (or_intror (conj eq_refl eq_refl)) D3 P4 S3
    (at_most_tail _ _ _ (at_most_tail _ _ _ A3)) W4) as (raw_a & h3 & r3 & P5 & N5 & -> & X5 & S5 & D5 & R5).
  apply dbind_done in H as (c5 & [] & H5 & H).
  assert (Q5 : quiet_step c4 c5) by (pose proof (quiet_forward E init' c4) as Q; rewrite H5 in Q; exact Q).
  destruct Q5 as ((K51 & K52 & K53 & K54 & K55 & K56) & Q51 & Q52 & Q53 & n5 & L5 & N5').
  apply dbind_done in H as (c6 & t & H2 & H). apply dlift_done in H2 as [-> Dt].
  unfold reply in H. destruct (c_owed c5) eqn:O5; [|discriminate]. injection H as <-. cbn [c_net c_stopped c_queue c_log c_owed c_attach log set_ctl].
  destruct R1 as (_ & _ & _ & _ & _ & R1a & _ & R1l), R3 as (_ & _ & _ & _ & _ & R3a & _ & R3l), R5 as (_ & _ & _ & _ & _ & R5a & _ & R5l).
  exists (h1 ++ h2 ++ h3)%list, r3, raw_a, t, raw_i, raw_c, (c_queue c1 ++ h2 ++ h3)%list, (c_queue c3 ++ h3)%list, (n2 ++ n5 ++ [AReply t])%list.
  split; [now rewrite <- !app_assoc|]. split; [now rewrite K51|]. split; [congruence|].
  split; [exists init; auto|]. split; [exists conf; auto|]. split; [exists resp; auto|].
  split; [now apply without_app_r|]. split; [rewrite app_assoc; now apply without_app_r|]. split; [now rewrite Q51|].
  split. { exists resp. split; auto. destruct (json_ok_dump EStrict resp) as (t' & Dt' & Pt); [eapply parse_json_ok; eauto|]. congruence. }
  split. { rewrite L5, R5l, R3l, L2, R1l, <- !app_assoc. reflexivity. }
  split; [now rewrite !routed_app, N2, N5'|]. split; auto. congruence.
Qed.

(** ** Rounds *)
Lemma session_more b read acts q a : session b read acts -> Forall2 dispatched q a -> session b (read ++ q) (acts ++ a).
Proof.
  intros [read' acts' F|p acts_p h kept attached t acts_h s acts_s F1 H V F2 F3] Fq.
  - constructor. now apply Forall2_app.
  - rewrite <- !app_assoc. cbn [app]. rewrite <- app_assoc. econstructor; eauto. now apply Forall2_app.
Qed.
Lemma queue_round E t c c' r rest : dap_stream r (sconcat (c_net c) +++ rest) ->
  dbind (when t handle_tcp_socket) (fun _ => process_message_queue E) c = (c', Done tt) ->
  exists more b2 new, r = (more ++ b2)%list /\ dap_stream b2 (sconcat (c_net c') +++ rest) /\ c_queue c' = [] /\ c_stopped c' = c_stopped c /\ c_attach c' = c_attach c /\
    c_log c' = (c_log c ++ new)%list /\ Forall2 dispatched (c_queue c ++ more) (routed new) /\ (c_owed c = false -> Forall an_event (c_queue c ++ more)).
Proof.
  intros Hs H. apply dbind_done in H as (c1 & [] & Ht & H). unfold process_message_queue in H.
  assert (T : exists more b2, r = (more ++ b2)%list /\ dap_stream b2 (sconcat (c_net c1) +++ rest) /\ c_queue c1 = (c_queue c ++ more)%list /\ c_stopped c1 = c_stopped c /\
    c_attach c1 = c_attach c /\ c_log c1 = c_log c /\ c_owed c1 = c_owed c).
  { destruct t; cbn [when] in Ht.
    - unfold handle_tcp_socket in Ht. destruct (handle_tcp_stream _ _ _ (c_queue c) Hs) as (b1 & b2 & used & net' & o & Eh & -> & _ & O). rewrite Eh in Ht. injection Ht as <- ->.
      destruct O as [[O _]|(_ & _ & _ & O)]; [discriminate|]. exists b1, b2. cbn. auto 10.
    - injection Ht as <-. exists [], r. rewrite app_nil_r. auto 10. }
  destruct T as (more & b2 & -> & D & Q & S & A & L & O).
  destruct (process_queue_ok E _ _ _ H) as (acts & new & F & Ln & R & (K1 & K2 & K3 & K4 & K5 & K6) & Qe & _).
  exists more, b2, new. split; auto. split; [now rewrite K1|]. split; auto. split; [congruence|]. split; [congruence|]. split; [congruence|].
  rewrite R. rewrite Q in F. split; auto. intros Ho. rewrite <- Q. apply (process_unowed E (c_queue c1) c1 c'); auto. congruence.
Qed.

Definition in_session (E : dapenv) (bodies : list string) (rest : string) (c : client) : Prop :=
  c_queue c = [] /\ c_stopped c = [] /\ (c_attach c = true -> dp_parallel E = true) /\
  exists read left, bodies = (read ++ left)%list /\ dap_stream left (sconcat (c_net c) +++ rest) /\ session (after_handshake E c) read (routed (c_log c)).

Lemma adapter_tail l l' : adapter_stream (l ++ l') -> adapter_stream l'.
Proof. intros (P & A1 & A2 & A3). apply Forall_app in P as [_ P]. repeat split; eauto using at_most_tail. Qed.
Lemma round_session E bodies rest h k t c c' : adapter_stream bodies -> in_session E bodies rest c -> iteration E h k t c = (c', Done tt) -> in_session E bodies rest c'.
Proof.
  intros Ha (Hq & Hst & Hat & read & left & -> & Hs & Se) H. unfold iteration in H.
  apply dbind_done in H as (c1 & [] & H1 & H).
  assert (X1 : exists n1, c_queue c1 = [] /\ c_stopped c1 = [] /\ c_attach c1 = c_attach c /\ c_net c1 = c_net c /\ c_log c1 = (c_log c ++ n1)%list /\ routed n1 = []).
  { destruct h; cbn [when] in H1; [|injection H1 as <-; exists []; rewrite app_nil_r; auto 10]. unfold handle_header_socket in H1.
    destruct (c_hdr c); [discriminate|]. injection H1 as <-. cbn. exists [AAck false]. auto 10. }
  destruct X1 as (n1 & Q1 & S1 & A1 & N1 & L1 & R1).
  apply dbind_done in H as (c2 & [] & H2 & H).
  assert (Rl : routed (c_log c1) = routed (c_log c)) by now rewrite L1, routed_app, R1, app_nil_r.
  assert (X2 : (exists n2, c_queue c2 = [] /\ c_stopped c2 = [] /\ c_attach c2 = c_attach c1 /\ c_net c2 = c_net c1 /\ c_log c2 = (c_log c1 ++ n2)%list /\ routed n2 = []) \/
    (c_attach c1 = true /\ c_attach c2 = false /\ c_owed c2 = false /\ c_stopped c2 = [] /\ exists hs b2 attached t0 init conf l1 l2 new, left = (hs ++ b2)%list /\ dap_stream b2 (sconcat (c_net c2) +++ rest) /\
    is_initialized init /\ is_configured conf /\ is_attached attached /\ without init hs l1 /\ without conf l1 l2 /\ without attached l2 (c_queue c2) /\
    same_value attached t0 /\ c_log c2 = (c_log c1 ++ new)%list /\ routed new = [AReply t0])).
  { destruct k; cbn [when] in H2; [|injection H2 as <-; left; exists []; rewrite app_nil_r; auto 10]. unfold handle_control_socket in H2.
    destruct (c_ctl c1) as [|m ctl]; [discriminate|]. cbn [c_attach set_ctl] in H2. destruct (c_attach c1) eqn:At.
    - apply dbind_done in H2 as (c3 & tp & H3 & H2). apply dlift_done in H3 as [-> _].
      apply dbind_done in H2 as (c3 & jm & H3 & H2). apply dlift_done in H3 as [-> _].
      apply dbind_done in H2 as (c3 & [] & H3 & H2). injection H3 as <-.
      apply dbind_done in H2 as (c3 & [cmd jm'] & H3 & H2). apply dlift_done in H3 as [-> _].
      destruct (json_eqb cmd (JStr "attach")).
      + apply dbind_done in H2 as (c3 & [] & H3 & H2). injection H2 as <-. right.
        destruct (init_session E _ _ left rest H3 Q1 S1) as (hs & b2 & attached & t0 & init & conf & l1 & l2 & new & Hb & D & St & I1 & I2 & I3 & W1 & W2 & W3 & V & L & R & O & _).
        { cbn. now rewrite N1. } { now apply adapter_tail in Ha. }
        cbn [c_attach c_owed c_stopped c_net c_queue c_log set_attach] in *. split; auto. split; auto. split; auto. split; auto.
        exists hs, b2, attached, t0, init, conf, l1, l2, (AForward m :: new). cbn in L. rewrite <- app_assoc in L. auto 15.
      + injection H2 as <-. left. exists [AForward m]. cbn. auto 10.
    - injection H2 as <-. left. exists [AForward m]. cbn. auto 10. }
  destruct X2 as [(n2 & Q2 & S2 & A2 & N2 & L2 & R2)|(A1' & A2 & O2 & S2 & hs & b2 & attached & t0 & init & conf & l1 & l2 & new & -> & D & I1 & I2 & I3 & W1 & W2 & W3 & V & L2 & R2)].
  - destruct (queue_round E t c2 c' left rest) as (more & b3 & n3 & -> & D3 & Q3 & S3 & A3 & L3 & F3 & _); auto. { now rewrite N2, N1. }
    split; auto. split; [congruence|]. split; [intros Z; apply Hat; congruence|]. exists (read ++ more)%list, b3. split; [now rewrite app_assoc|]. split; auto.
    assert (Ah : after_handshake E c' = after_handshake E c) by (unfold after_handshake; congruence). rewrite Ah, L3, L2, !routed_app, R2, app_nil_r, Rl.
    apply session_more; auto. now rewrite Q2 in F3.
  - destruct (queue_round E t c2 c' b2 rest) as (more & b3 & n3 & -> & D3 & Q3 & S3 & A3 & L3 & F3 & Ev); auto.
    split; auto. split; [congruence|]. split; [congruence|]. exists (read ++ hs ++ more)%list, b3. split; [now rewrite <- !app_assoc|]. split; auto.
    assert (P : dp_parallel E = true) by (apply Hat; congruence).
    assert (Ah : after_handshake E c' = true) by (unfold after_handshake; now rewrite A3, A2, P). rewrite Ah, L3, L2, !routed_app, R2, Rl.
    assert (Ac : after_handshake E c = false). { unfold after_handshake. rewrite <- A1, A1'. apply andb_false_r. }
    rewrite Ac in Se. inversion Se as [? ? F|]; subst. apply Forall2_app_inv_l in F3 as (ah & as_ & Fh & Fs & Eq). rewrite Eq, <- app_assoc. cbn [app].
    econstructor; eauto. exists init, conf, l1, l2. repeat (split; auto). specialize (Ev O2). now apply Forall_app in Ev.
Qed.
Theorem serves_session E bodies rest c c' : adapter_stream bodies -> in_session E bodies rest c -> serves E c c' -> in_session E bodies rest c'.
Proof. intros Ha H S. induction S as [|c h k t c1 c2 _ _ Hi _ IH]; auto. apply IH. eapply round_session; eauto. Qed.
Theorem session_ok E net ctl hdr bodies rest c0 c : dap_stream bodies (sconcat net +++ rest) -> adapter_stream bodies ->
  start_debugger E (c_init net ctl hdr) = (c0, Done tt) -> serves E c0 c -> in_session E bodies rest c.
Proof.
  intros Hs Ha H. apply serves_session; auto. unfold start_debugger in H. cbn in H. destruct ctl; [discriminate|]. injection H as <-.
  split; auto. split; auto. split; auto. exists [], bodies. split; auto. split; auto. unfold after_handshake. cbn. rewrite andb_negb_r. constructor. constructor.
Qed.

(** ** The replies are the adapter's answers *)
Lemma replies_routed l : replies (routed l) = replies l.
Proof. induction l as [|[| | | | | |] l IH]; cbn; auto. now f_equal. Qed.
Lemma answers_app b l l' a a' : answers_of b l a -> answers_of b l' a' -> answers_of b (l ++ l') (a ++ a').
Proof. intros H. induction H; intros H'; cbn; auto; try (constructor; auto; fail). Qed.
Lemma answers_split b l l' a : answers_of b (l ++ l') a -> exists a1 a2, a = (a1 ++ a2)%list /\ answers_of b l a1 /\ answers_of b l' a2.
Proof.
  revert a. induction l as [|x l IH]; intros a H; cbn in H; [exists [], a; repeat split; auto; constructor|].
  inversion H as [|? ? ? E H'|? ? ? E C H'|? ? ? E C H']; subst; apply IH in H' as (a1 & a2 & -> & H1 & H2).
  - exists a1, a2. repeat split; auto. now constructor.
  - exists a1, a2. repeat split; auto. now apply answers_hidden.
  - exists (x :: a1), a2. repeat split; auto. now constructor.
Qed.
Lemma answers_events b l : Forall an_event l -> answers_of b l [].
Proof. induction 1; constructor; auto. Qed.
Lemma answers_insert b x l' l a : without x l' l -> (an_event x \/ b = true /\ is_configured x) -> answers_of b l a -> answers_of b l' a.
Proof.
  intros (u & v & -> & ->) Hx H. apply answers_split in H as (a1 & a2 & -> & H1 & H2). apply answers_app; auto.
  destruct Hx as [Hx|[Hb Hx]]; [now constructor|now apply answers_hidden].
Qed.
Lemma event_not_answer raw : an_event raw -> ~ is_answer raw.
Proof. intros (j & P & Ev) (i & P' & N). assert (i = j) by congruence. now subst. Qed.
Lemma same_value_refl raw : is_answer raw -> same_value raw raw.
Proof. intros (j & P & _). exists j. auto. Qed.
Lemma dispatched_answers b l acts : Forall2 dispatched l acts -> (b = true -> forall raw, In raw l -> ~ is_configured raw) ->
  exists ans, answers_of b l ans /\ ans = replies acts /\ Forall2 same_value ans (replies acts).
Proof.
  intros F. induction F as [|raw a l acts D F IH]; intros C; [exists []; repeat split; constructor|].
  destruct IH as (ans & A & Ea & V). { intros Hb r Hr. apply C; cbn; auto. }
  destruct D as (j & P & [[Ev ->]|[Ev ->]]); cbn.
  - exists ans. repeat split; auto. constructor; auto. exists j. auto.
  - exists (raw :: ans). assert (I : is_answer raw) by (exists j; auto). split; [|split; [now f_equal|constructor; auto using same_value_refl]].
    apply answers_keep; auto. intros [Hb Hc]. apply (C Hb raw); cbn; auto.
Qed.
Lemma named_answer key value raw : is_named "response" key value raw -> is_answer raw.
Proof. intros (j & P & T & _). exists j. split; auto. unfold is_event. rewrite T. discriminate. Qed.
Theorem session_answers b read acts : at_most_one is_configured read -> session b read acts ->
  exists ans, answers_of b read ans /\ Forall2 same_value ans (replies acts).
Proof.
  intros Hm Se. inversion Se as [? ? F|p acts_p h kept attached t acts_h s acts_s F1 (init & conf & l1 & l2 & I1 & I2 & I3 & W1 & W2 & W3 & Ev) V F2 F3]; subst.
  - destruct (dispatched_answers false read acts F) as (ans & A & _ & S); [discriminate|]. eauto.
  - assert (Hc : exists u v, h = (u ++ conf :: v)%list).
    { assert (In conf h). { destruct W1 as (a & c & -> & ->). destruct W2 as (a' & c' & E & _). assert (X : In conf (a ++ c)) by (rewrite E; apply in_elt).
        apply in_app_iff in X. apply in_app_iff. cbn. tauto. }
      now apply in_split. }
    destruct Hc as (u & v & Eh).
    destruct (dispatched_answers true p acts_p F1) as (a1 & A1 & _ & V1).
    { intros _ raw Hr C. apply in_split in Hr as (x & y & ->). refine (Hm x raw (y ++ u)%list conf (v ++ s)%list _ C I2). rewrite Eh. repeat (rewrite <- app_assoc; cbn [app]). reflexivity. }
    destruct (dispatched_answers true s acts_s F3) as (a3 & A3 & _ & V3).
    { intros _ raw Hr C. apply in_split in Hr as (x & y & ->). refine (Hm (p ++ u)%list conf (v ++ x)%list raw y _ I2 C). rewrite Eh. repeat (rewrite <- app_assoc; cbn [app]). reflexivity. }
    assert (Rh : replies acts_h = []).
    { clear -F2 Ev. induction F2 as [|r a l acts D F IH]; auto. inversion Ev as [|? ? E Ev']; subst. change (a :: acts) with ([a] ++ acts)%list. rewrite replies_app, IH by auto.
      destruct D as (j & P & [[_ ->]|[N _]]); auto. elim (event_not_answer r E). exists j. auto. }
    assert (Ah : answers_of true h [attached]).
    { eapply answers_insert; [exact W1|left; destruct I1 as (j & P & T & _); exists j; auto|]. eapply answers_insert; [exact W2|auto|].
      destruct W3 as (x & y & -> & ->). apply Forall_app in Ev as [E1 E2]. apply (answers_app true x (attached :: y) [] [attached]); [now apply answers_events|].
      constructor; [eapply named_answer; exact I3| |now apply answers_events]. intros [_ (j & P & _ & C)]. destruct I3 as (i & P' & _ & C'). congruence. }
    exists (a1 ++ attached :: a3)%list. split.
    + apply answers_app; auto. apply (answers_app true h s [attached] a3); auto.
    + change (AReply t :: acts_h ++ acts_s) with ([AReply t] ++ acts_h ++ acts_s)%list. rewrite !replies_app, Rh. apply Forall2_app; auto. constructor; auto.
Qed.
