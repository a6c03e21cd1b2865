(** When a round of the client's loop cannot block. *)
From Verif Require Import Base BaseFacts Json JsonText Auth Message Dap DapSpec DapProofs DapQueue DapMain DapAttach.

Definition nowait {A} (p : D A) : Prop := forall c, snd (p c) <> Waits.
Lemma nowait_bind {A B} (p : D A) (f : A -> D B) : nowait p -> (forall a, nowait (f a)) -> nowait (dbind p f).
Proof. intros Hp Hf c. specialize (Hp c). unfold dbind. destruct (p c) as [c1 [a|e|w|]]; cbn in *; try discriminate; [apply Hf|contradiction]. Qed.
Lemma nowait_lift {A} (r : res A) : nowait (dlift r).
Proof. intros c. destruct r; discriminate. Qed.
Lemma nowait_mod f : nowait (dmod f).
Proof. intros c. discriminate. Qed.
Lemma nowait_reply t : nowait (reply t).
Proof. intros c. unfold reply. destruct (c_owed c); discriminate. Qed.
(** ** More to come from the adapter changes nothing *)
Lemma read_until_more x pat hint net : forall found buf n b p, read_until pat hint found buf net = (n, b, Some p) -> read_until pat hint found buf (net ++ x) = (n ++ x, b, Some p)%list.
Proof.
  induction net as [|y net IH]; intros [q|] buf n b p H; cbn in *; try (injection H as <- <- <-; reflexivity); [|discriminate|].
  - destruct x; cbn; injection H as <- <- <-; reflexivity.
  - now apply IH.
Qed.
Lemma read_size_more x pos size net : forall buf n b, read_size pos size buf net = (n, b, true) -> read_size pos size buf (net ++ x) = (n ++ x, b, true)%list.
Proof.
  induction net as [|y net IH]; intros buf n b H; cbn in *.
  - destruct (N.of_nat (slen buf - pos) <? size)%N eqn:L; [discriminate|]. injection H as <- <-. destruct x; cbn; now rewrite L.
  - destruct (N.of_nat (slen buf - pos) <? size)%N; [now apply IH|]. injection H as <- <-. reflexivity.
Qed.
Lemma frame_more x : forall fuel fuel' buf hp hint net q n q', fuel <= fuel' -> frame_loop fuel buf hp hint net q = (n, q', Done tt) ->
  frame_loop fuel' buf hp hint (net ++ x) q = (n ++ x, q', Done tt)%list.
Proof.
  induction fuel as [|fuel IH]; intros fuel' buf hp hint net q n q' Hf H; cbn [frame_loop] in H; [discriminate|].
  destruct fuel' as [|fuel']; [lia|]. cbn [frame_loop].
  destruct (read_until HEADER hint hp buf net) as [[n1 b1] [p1|]] eqn:E1; [|discriminate]. rewrite (read_until_more x _ _ _ _ _ _ _ _ E1).
  destruct (read_until SEPARATOR (p1 + HEADER_LENGTH) _ b1 n1) as [[n2 b2] [p2|]] eqn:E2; [|discriminate]. rewrite (read_until_more x _ _ _ _ _ _ _ _ E2).
  destruct (let* t := substr b2 (p1 + HEADER_LENGTH) p2 in stoull t) as [sz|e|w]; try discriminate.
  destruct (read_size (p2 + SEPARATOR_LENGTH) sz b2 n2) as [[n3 b3] [|]] eqn:E3; [|discriminate]. rewrite (read_size_more x _ _ _ _ _ _ E3). cbn [negb] in *.
  destruct (N.of_nat (slen b3 - (p2 + SEPARATOR_LENGTH)) =? sz)%N; [injection H as <- <-; reflexivity|]. apply IH; auto. lia.
Qed.
Lemma sconcat_app a b : sconcat (a ++ b) = sconcat a +++ sconcat b.
Proof. induction a; cbn; [reflexivity|]. now rewrite IHa, sapp_assoc. Qed.
Lemma handle_tcp_more x net q n q' : handle_tcp net q = (n, q', Done tt) -> handle_tcp (net ++ x) q = (n ++ x, q', Done tt)%list.
Proof. apply frame_more. rewrite sconcat_app, slen_app. lia. Qed.
Lemma stream_app a b s t : dap_stream a s -> dap_stream b t -> dap_stream (a ++ b) (s +++ t).
Proof. intros (ts & H1 & ->) (us & H2 & ->). exists (ts ++ us)%list. split; [now apply Forall2_app|]. symmetry. apply sconcat_app. Qed.
Definition more (x : list string) (c : client) : client := set_net (c_net c ++ x) c.
Lemma wait_loop_more x cond : forall fuel fuel' c c' j, fuel <= fuel' -> wait_loop fuel cond c = (c', Done j) -> wait_loop fuel' cond (more x c) = (more x c', Done j).
Proof.
  induction fuel as [|fuel IH]; intros fuel' c c' j Hf H; cbn [wait_loop] in H; [discriminate|]. destruct fuel' as [|fuel']; [lia|]. cbn [wait_loop].
  change (c_net (more x c)) with (c_net c ++ x)%list. change (c_stopped (more x c)) with (c_stopped c).
  destruct (handle_tcp (c_net c) (c_stopped c)) as [[net st] [[]| | |]] eqn:E; try discriminate. rewrite (handle_tcp_more x _ _ _ _ E).
  cbn [c_stopped c_queue set_net set_stopped more] in *.
  destruct (sort_stopped cond None st (c_queue c)) as [[st' q'] [[j'|]| |]] eqn:S; try discriminate.
  - injection H as <- <-. reflexivity.
  - apply (IH fuel') in H; [|lia]. exact H.
Qed.
Lemma wait_more x cond c c' j : wait_for_message cond c = (c', Done j) -> wait_for_message cond (more x c) = (more x c', Done j).
Proof.
  unfold wait_for_message. change (c_queue (more x c)) with (c_queue c). destruct (find_msg cond [] (c_queue c)) as [[[j' q]|]| |]; try discriminate.
  - intros H. injection H as <- <-. reflexivity.
  - apply wait_loop_more. cbn. rewrite app_length. lia.
Qed.

(** ** Calls that do not wait in the states [P] *)
Definition ends {A} (P : client -> Prop) (p : D A) (Q : A -> client -> Prop) : Prop :=
  forall c, P c -> match p c with (c', Done a) => Q a c' | (_, Waits) => False | _ => True end.
Lemma ends_bind {A B} P (p : D A) Q (f : A -> D B) R : ends P p Q -> (forall a, ends (Q a) (f a) R) -> ends P (dbind p f) R.
Proof. intros Hp Hf c Hc. specialize (Hp c Hc). unfold dbind. destruct (p c) as [c1 [a|e|w|]]; auto. apply Hf. exact Hp. Qed.
Lemma ends_lift {A} P (r : res A) : ends P (dlift r) (fun _ => P).
Proof. intros c Hc. destruct r; cbn; auto. Qed.
Lemma ends_nowait {A} (P : client -> Prop) (p : D A) : nowait p -> (forall c, P c -> P (fst (p c))) -> ends P p (fun _ => P).
Proof. intros N H c Hc. specialize (N c). specialize (H c Hc). destruct (p c) as [c1 [a|e|w|]]; cbn in *; auto. Qed.
Lemma ends_post {A} P (p : D A) (Q R : A -> client -> Prop) : ends P p Q -> (forall a c, Q a c -> R a c) -> ends P p R.
Proof. intros H I c Hc. specialize (H c Hc). destruct (p c) as [c1 [a|e|w|]]; auto. Qed.

(** What is still to come: the messages [l], within the queue and the chunks before [x]. *)
Definition awaits (x : list string) (l : list string) (c : client) : Prop :=
  c_stopped c = [] /\ exists net bodies, c_net c = (net ++ x)%list /\ dap_stream bodies (sconcat net) /\ Forall protocol_message (c_queue c ++ bodies) /\
    (forall raw, In raw l -> In raw (c_queue c ++ bodies)).
Lemma rejected_in cond l l' raw : rejected_of parse cond l l' -> In raw l -> fails parse cond raw -> In raw l'.
Proof.
  induction 1; cbn; intros Hi Hf; [contradiction| |].
  - destruct Hi as [->|Hi]; auto. exfalso. eapply fails_meets; eauto.
  - destruct Hi as [->|Hi]; auto.
Qed.
Lemma rejected_incl cond l l' raw : rejected_of parse cond l l' -> In raw l' -> In raw l.
Proof. induction 1; cbn; auto. intros [->|Hi]; auto. Qed.
Lemma wait_present x ty k v l raw : (ty = "event" /\ k = "event") \/ (ty = "response" /\ k = "command") ->
  (exists j, parse raw = Ok j /\ named ty k v j) -> (forall r, In r l -> exists j, parse r = Ok j /\ ~ named ty k v j) ->
  ends (awaits x (raw :: l)) (wait_for_message (is_message ty k v)) (fun _ => awaits x l).
Proof.
  intros Hk (j & Pj & Nj) Hl c (Hst & net & bodies & En & Hs & Hp & Hi).
  set (c0 := set_net net c). assert (Ec : c = more x c0) by (destruct c; unfold more, c0, set_net; cbn in *; now rewrite En).
  assert (Hd : Forall (defined parse (is_message ty k v)) (c_queue c ++ bodies)) by (eapply Forall_impl; [|exact Hp]; now apply protocol_defined).
  apply Forall_app in Hd as [Hd1 Hd2]. rewrite <- (sapp_nil_r (sconcat net)) in Hs.
  destruct (wait_for_ok (is_message ty k v) c0 bodies "" Hs Hd1 Hd2 Hst) as (c' & o & E & S & O).
  assert (M : meets parse (is_message ty k v) raw j) by (apply meets_named; auto).
  assert (F : forall r, In r l -> fails parse (is_message ty k v) r).
  { intros r Hr. rewrite Forall_forall in Hp. destruct (protocol_defined ty k v Hk r (Hp _ (Hi r (or_intror Hr)))) as [(i & Mi)|F]; auto.
    apply meets_named in Mi; auto. destruct (Hl r Hr) as (i' & Pi & Ni). destruct Mi. congruence. }
  destruct O as [(-> & O)|[(j' & a & r0 & b & -> & Eq & Fa & Mr & S' & En' & Eq')|(j' & b1 & b2 & kept & u & l0 & -> & Fq & -> & R & Eq & S' & -> & Fu & L & Dn & _)]].
  - exfalso. specialize (O eq_refl). rewrite Forall_forall in O. eapply fails_meets; [apply O|exact M]. apply Hi. cbn. auto.
  - rewrite Ec, (wait_more x _ _ _ _ E). clear Ec. change (c_queue c0) with (c_queue c) in Eq. split; [exact S'|]. exists net, bodies. cbn.
    rewrite sapp_nil_r in Hs. split; [now rewrite En'|]. split; auto. rewrite Eq', Eq in *. split.
    + rewrite <- app_assoc in *. apply Forall_app in Hp as [H1 H2]. inversion H2; subst. apply Forall_app. auto.
    + intros r Hr. specialize (Hi r (or_intror Hr)). rewrite <- app_assoc in *. apply in_app_iff in Hi as [Hi|[<-|Hi]]; [apply in_app_iff; auto| |apply in_app_iff; auto].
      exfalso. eapply fails_meets; [exact (F _ Hr)|exact Mr].
  - rewrite Ec, (wait_more x _ _ _ _ E). clear Ec. change (c_queue c0) with (c_queue c) in Eq, Fq. rewrite sapp_nil_r in Dn. split; [exact S'|].
    exists (c_net c'), b2. cbn. split; auto. split; auto. rewrite Eq. split.
    + rewrite !Forall_app in Hp. destruct Hp as (H1 & H2 & H3). rewrite !Forall_app. repeat split; auto. rewrite <- Forall_app in H2.
      rewrite Forall_forall in *. intros r Hr. apply H2. eapply rejected_incl; eauto.
    + intros r Hr. specialize (Hi r (or_intror Hr)). rewrite <- app_assoc. apply in_app_iff in Hi as [Hi|Hi]; [apply in_app_iff; auto|].
      apply in_app_iff in Hi as [Hi|Hi]; apply in_app_iff; right; apply in_app_iff; [left|auto]. eapply rejected_in; eauto.
Qed.

Section Live.
  Context (E : dapenv).
  Lemma nowait_forward j : nowait (forward_event E j).
  Proof.
    intros c. unfold forward_event. match goal with |- snd (?p ?c) <> _ => assert (N : nowait p); [|apply N] end.
    apply nowait_bind; [apply nowait_lift|intros _]. apply nowait_bind; [intros c0; discriminate|intros n].
    apply nowait_bind; [intros c0; cbn; destruct (String.eqb _ _); [discriminate|destruct (parse _); discriminate]|intros ph].
    apply nowait_bind; [apply nowait_lift|intros w]. apply nowait_mod.
  Qed.
  Lemma nowait_request j : nowait (send_dap_request j).
  Proof. apply nowait_bind; [apply nowait_lift|intros t]. apply nowait_mod. Qed.
  Lemma nowait_ucalls l : nowait (ucalls E l).
  Proof. induction l as [|[j|j] l IH]; cbn [ucalls]; [intros c; discriminate| |]; apply nowait_bind; auto using nowait_forward, nowait_request. Qed.
  Lemma nowait_event j : nowait (handle_event E j).
  Proof.
    intros c. unfold handle_event. cbn. destruct (dp_event E _ _ j) as [l r]. apply (nowait_bind (ucalls E l) (fun _ => dlift r)); [apply nowait_ucalls|intros _; apply nowait_lift].
  Qed.
  Lemma nowait_message raw : nowait (process_message E raw).
  Proof.
    apply nowait_bind; [apply nowait_lift|intros j]. apply nowait_bind; [apply nowait_lift|intros [ty j']].
    destruct (json_eqb ty _); [apply nowait_event|]. apply nowait_bind; [apply nowait_lift|intros [cmd j'']]. apply nowait_bind; [|intros _; apply nowait_reply].
    destruct (json_eqb cmd _); [apply nowait_mod|intros c; discriminate].
  Qed.
  Lemma nowait_queue q : nowait (process_queue E q).
  Proof.
    induction q as [|raw q IH]; intros c; cbn [process_queue]; [discriminate|].
    pose proof (nowait_message raw (set_queue (raw :: q) c)) as M. destruct (process_message E raw _) as [c1 [[]| | |]]; cbn in *; auto; discriminate.
  Qed.
  Lemma awaits_log x l a c : awaits x l c -> awaits x l (log a c).
  Proof. auto. Qed.
  Lemma request_awaits x l j : ends (awaits x l) (send_dap_request j) (fun _ => awaits x l).
  Proof. apply ends_nowait; [apply nowait_request|]. intros c H. unfold send_dap_request, dbind, dlift. destruct (dump EStrict j); cbn; auto. Qed.
  Lemma reply_awaits x l t : ends (awaits x l) (reply t) (fun _ => awaits x l).
  Proof. apply ends_nowait; [apply nowait_reply|]. intros c H. unfold reply. destruct (c_owed c); cbn; auto. Qed.
  Lemma forward_awaits x l j : ends (awaits x l) (forward_event E j) (fun _ => awaits x l).
  Proof.
    apply ends_nowait; [apply nowait_forward|]. intros c H. unfold forward_event, dbind, dlift, dmod. destruct (dp_callback E _ j); cbn; auto.
    destruct (String.eqb (c_parent c) ""); cbn; [|destruct (parse (c_parent c)); cbn; auto]; destruct (pub_serialize _ _ _ _); cbn; auto.
  Qed.
  Lemma frame_inj a b : dap_frame a = dap_frame b -> a = b.
  Proof. intros H. destruct (frame_sep a) as (p & P1 & P2), (frame_sep b) as (q & Q1 & Q2). rewrite H in *. congruence. Qed.
  Lemma attach_dec content : asks_attach (dap_frame content) \/ ~ asks_attach (dap_frame content).
  Proof.
    destruct (parse content) as [req| |] eqn:P; [|right; intros (c' & r & Q & X & _); apply frame_inj in Q; congruence..].
    destruct (jfield "command" req) as [j|] eqn:J; [|right; intros (c' & r & Q & X & Y); apply frame_inj in Q; congruence].
    destruct (json_eqb j (JStr "attach")) eqn:B.
    - apply json_eqb_str in B. subst. left. exists content, req. auto.
    - right. intros (c' & r & Q & X & Y). apply frame_inj in Q. subst c'. rewrite P in X. injection X as <-. rewrite J in Y. injection Y as ->.
      now rewrite (proj2 (json_eqb_str _ _) eq_refl) in B.
  Qed.
  Lemma init_awaits x init conf attach : handshake init conf attach -> ends (awaits x [init; conf; attach]) (handle_init_sequence E) (fun _ => awaits x []).
  Proof.
    intros (HI & HC & HA). unfold handle_init_sequence.
    eapply ends_bind; [apply wait_present; auto|].
    { intros r [<-|[<-|[]]]; [destruct HC as (j & P & N1 & N2)|destruct HA as (j & P & N1 & N2)]; exists j; (split; [exact P|]); intros [M _]; congruence. }
    intros ini. eapply ends_bind; [apply ends_lift|intros [sq ini']]. eapply ends_bind; [apply ends_lift|intros sq']. eapply ends_bind; [apply ends_lift|intros sq''].
    eapply ends_bind; [apply request_awaits|intros ?; cbv beta].
    eapply ends_bind; [apply wait_present; auto|].
    { intros r [<-|[]]. destruct HA as (j & P & N1 & N2). exists j. split; [exact P|]. intros [_ M]. congruence. }
    intros ?; cbv beta. eapply ends_bind; [apply wait_present; auto; intros r []|]. intros resp; cbv beta.
    eapply ends_bind; [apply forward_awaits|intros ?; cbv beta]. eapply ends_bind; [apply ends_lift|intros raw]. apply reply_awaits.
  Qed.
  Lemma control_ends x c m r : c_ctl c = m :: r -> (exists content, m = dap_frame content) \/ c_attach c = false ->
    (c_attach c = true -> asks_attach m -> exists init conf attach, handshake init conf attach /\ awaits x [init; conf; attach] c) ->
    match handle_control_socket E c with
    | (c', Done _) => c_net c' = c_net c \/ (c_attach c = true /\ asks_attach m /\ exists net b, c_net c' = (net ++ x)%list /\ dap_stream b (sconcat net))
    | (_, Waits) => False | _ => True end.
  Proof.
    intros Hc Hm Ha. unfold handle_control_socket. rewrite Hc. cbn [c_attach set_ctl]. destruct (c_attach c) eqn:At; [|cbn; auto].
    destruct Hm as [(content & ->)|Hm]; [|discriminate]. destruct (frame_sep content) as (p & Sp & Su).
    unfold dbind at 1, dlift at 1. rewrite Sp, Su. cbn [io_of]. unfold dbind at 1, dlift at 1. destruct (parse content) as [req| |] eqn:Pr; cbn [io_of]; auto.
    unfold dbind at 1, dmod at 1. unfold dbind at 1, dlift at 1. destruct (jget_mut "command" req) as [[cmd req']| |] eqn:J; cbn [io_of]; auto.
    destruct (json_eqb cmd (JStr "attach")) eqn:Q; [|cbn; auto]. apply json_eqb_str in Q. subst cmd.
    assert (A : asks_attach (dap_frame content)).
    { exists content, req. split; [reflexivity|]. split; [exact Pr|]. now apply (proj1 (jget_mut_field _ _ _ _ J)). }
    destruct (Ha eq_refl A) as (init & conf & attach & H & W).
    pose proof (init_awaits x init conf attach H (log (AForward (dap_frame content)) (set_ctl r true c)) W) as X.
    unfold dbind, dmod. destruct (handle_init_sequence E _) as [c1 [[]| | |]]; auto. cbn. right. destruct X as (_ & net & b & X & Y & _). eauto 6.
  Qed.
  (** A round does not block. *)
  Lemma round_progress h k t c : polled h k t c ->
    (t = true -> some_message (c_net c)) ->
    (k = true -> c_attach c = true -> exists content, head (c_ctl c) = Some (dap_frame content)) ->
    (k = true -> c_attach c = true -> (exists m, head (c_ctl c) = Some m /\ asks_attach m) ->
       c_stopped c = [] /\ exists ahead bodies later, c_net c = (ahead ++ later)%list /\ dap_stream bodies (sconcat ahead) /\
         Forall protocol_message (c_queue c ++ bodies) /\ handshake_in (c_queue c ++ bodies) /\ (t = true -> some_message later)) ->
    snd (iteration E h k t c) <> Waits.
  Proof.
    intros (_ & Ph & Pk & Pt) Hb Hf Ha. unfold iteration.
    assert (K1 : forall b c c', when b handle_header_socket c = (c', Done tt) -> c_net c' = c_net c /\ c_attach c' = c_attach c /\ c_ctl c' = c_ctl c /\ c_queue c' = c_queue c /\ c_stopped c' = c_stopped c).
    { intros [] a a' H; cbn in H; [|injection H as <-; auto]. unfold handle_header_socket in H. destruct (c_hdr a); [discriminate|]. injection H as <-. auto. }
    unfold dbind at 1. destruct (when h handle_header_socket c) as [c1 o] eqn:E1. destruct o as [[]|e|w|]; try discriminate.
    2:{ destruct h; cbn in E1; [|discriminate]. unfold handle_header_socket in E1. destruct (c_hdr c); [elim (Ph eq_refl eq_refl)|discriminate]. }
    destruct (K1 _ _ _ E1) as (N1 & A1 & C1 & Q1 & S1).
    assert (K2 : match when k (handle_control_socket E) c1 with
      | (c', Done _) => t = true -> some_message (c_net c') | (_, Waits) => False | _ => True end).
    { destruct k; cbn [when]; [|cbn; now rewrite N1].
      destruct (c_ctl c) as [|m r] eqn:Hc; [now elim (proj1 (Pk eq_refl))|].
      assert (Fm : (exists content, m = dap_frame content) \/ c_attach c1 = false).
      { rewrite A1. destruct (c_attach c); auto. left. destruct (Hf eq_refl eq_refl) as (content & H). injection H as ->. eauto. }
      destruct (Bool.bool_dec (c_attach c) true) as [HA|HA].
      2:{ apply Bool.not_true_is_false in HA. pose proof (control_ends [] c1 m r ltac:(congruence) Fm) as X. destruct (handle_control_socket E c1) as [c2 o].
        specialize (X ltac:(rewrite A1, HA; discriminate)). destruct o; auto. destruct X as [X|(X & _)]; [rewrite X, N1; auto|congruence]. }
      assert (Dm : asks_attach m \/ ~ asks_attach m) by (destruct Fm as [(content & ->)|Fm]; [apply attach_dec|congruence]). destruct Dm as [Hm|Hm].
      2:{ pose proof (control_ends [] c1 m r ltac:(congruence) Fm) as X. destruct (handle_control_socket E c1) as [c2 o].
        specialize (X ltac:(intros _ Q; now elim Hm)). destruct o; auto. destruct X as [X|(_ & X & _)]; [rewrite X, N1; auto|now elim Hm]. }
      destruct (Ha eq_refl HA (ex_intro _ m (conj eq_refl Hm))) as (W1 & ahead & bodies & later & W2 & W3 & W4 & (i & cf & at' & W5 & W6 & W7 & W8) & W9).
      pose proof (control_ends later c1 m r ltac:(congruence) Fm) as X. destruct (handle_control_socket E c1) as [c2 o].
      specialize (X ltac:(intros _ _; exists i, cf, at'; split; [exact W5|]; split; [congruence|]; exists ahead, bodies; rewrite N1, Q1; repeat (split; [assumption|]); intros raw [<-|[<-|[<-|[]]]]; assumption)).
      destruct o; auto. intros Ht. destruct X as [X|(_ & _ & net & b & Xn & Xb)]; [rewrite X, N1; auto|].
      destruct (W9 Ht) as (b' & Hne & Hs). exists (b ++ b')%list. split; [destruct b; [auto|discriminate]|].
      rewrite Xn, sconcat_app. now apply stream_app. }
    unfold dbind at 1. destruct (when k (handle_control_socket E) c1) as [c2 [[]| | |]]; try discriminate; [|destruct K2].
    unfold dbind at 1. destruct (when t handle_tcp_socket c2) as [c3 o] eqn:E3. destruct o as [[]|e|w|]; try discriminate.
    - apply nowait_queue.
    - destruct t; cbn in E3; [|discriminate]. destruct (K2 eq_refl) as (bodies & Hne & Hs). unfold handle_tcp_socket in E3. rewrite <- (sapp_nil_r (sconcat (c_net c2))) in Hs.
      destruct (handle_tcp_stream _ _ _ (c_queue c2) Hs) as (b1 & b2 & used & net' & o & H & _ & _ & O). rewrite H in E3. injection E3 as _ ->.
      destruct O as [(_ & _ & O)|(O & _)]; [|discriminate]. now elim (Hne (O eq_refl)).
  Qed.
End Live.
