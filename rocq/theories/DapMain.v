(** The main loop of the debug adapter client: lock step with the debugger, published events, and the
    handshake on an attach request. *)
From Verif Require Import Base BaseFacts Json JsonText JsonTextProofs JsonParseProofs Utf8 Auth Message MessageProofs Dap DapSpec DapProofs DapQueue.

(** ** wait_for_message changes only the buffers. *)
Definition only_buffers (c c' : client) : Prop :=
  same_rest c c'.
Lemma same_rest_refl c : same_rest c c.
Proof. repeat split. Qed.
Lemma wait_loop_rest cond fuel : forall c, same_rest c (fst (wait_loop fuel cond c)).
Proof.
  induction fuel as [|fuel IH]; intros c; [apply same_rest_refl|]. cbn [wait_loop].
  destruct (handle_tcp (c_net c) (c_stopped c)) as [[net st] o]. destruct o as [[]|e|w|]; try (repeat split; fail).
  destruct (sort_stopped cond None _ _) as [[st' q'] [[j|]|e|w]]; try (repeat split; fail).
  eapply same_rest_trans; [|apply IH]. repeat split.
Qed.
Lemma wait_rest cond c : same_rest c (fst (wait_for_message cond c)).
Proof.
  unfold wait_for_message. destruct (find_msg cond [] (c_queue c)) as [[[j q]|]|e|w]; try (repeat split; fail). apply wait_loop_rest.
Qed.

(** ** Partial correctness *)
Definition keeps {A} (I : client -> Prop) (p : D A) (J : client -> Prop) : Prop := forall c c' a, I c -> p c = (c', Done a) -> J c'.
Lemma keeps_bind {A B} I J K (p : D A) (f : A -> D B) : keeps I p J -> (forall a, keeps J (f a) K) -> keeps I (dbind p f) K.
Proof. intros Hp Hf c c' b HI. unfold dbind. destruct (p c) as [c1 [a|e|w|]] eqn:E; try discriminate. intros H. eapply Hf; eauto. Qed.
Lemma keeps_lift {A} I (r : res A) : keeps I (dlift r) I.
Proof. intros c c' a HI. unfold dlift. intros [= <- _]. exact HI. Qed.
Lemma keeps_rest {A} (I : client -> Prop) (p : D A) : (forall c, same_rest c (fst (p c))) -> (forall c c', same_rest c c' -> I c -> I c') -> keeps I p I.
Proof. intros Hp HI c c' a H E. eapply HI; eauto. specialize (Hp c). now rewrite E in Hp. Qed.
Lemma keeps_ret {A} I (a : A) : keeps I (dret a) I.
Proof. intros c c' b HI [= <- _]. exact HI. Qed.

Section LockStep.
  Context (E : dapenv).
  (** [ctl]: the requests still to be received when [c_log] was [l0]. *)
  Definition stepping (ctl : list string) (b : bool) (c : client) : Prop :=
    alternates (c_log c) b /\ c_owed c = b /\ (requests (c_log c) ++ c_ctl c)%list = ctl.
  Definition stepped ctl c := stepping ctl (c_owed c) c.

  Lemma requests_app a b : requests (a ++ b) = (requests a ++ requests b)%list.
  Proof. apply flat_map_app. Qed.
  Lemma replies_app a b : replies (a ++ b) = (replies a ++ replies b)%list.
  Proof. apply flat_map_app. Qed.
  Lemma stepping_rest ctl b c c' : same_rest c c' -> stepping ctl b c -> stepping ctl b c'.
  Proof. intros (A1 & A2 & A3 & A4 & A5 & A6 & A7 & A8) (H1 & H2 & H3). unfold stepping. rewrite A8, A3, A1. auto. Qed.
  Lemma step_other ctl b a : (forall x, a <> AForward x) -> (forall t, a <> AReply t) -> keeps (stepping ctl b) (dmod (log a)) (stepping ctl b).
  Proof.
    intros N1 N2 c c' u (H1 & H2 & H3) [= <-]. split; [|split]; cbn; auto. - now constructor.
    - rewrite requests_app. replace (requests [a]) with (@nil string); [now rewrite app_nil_r|]. destruct a; auto. now elim (N1 bytes).
  Qed.
  Lemma step_reply ctl t : keeps (stepping ctl true) (reply t) (stepping ctl false).
  Proof.
    intros c c' u (H1 & H2 & H3). unfold reply. rewrite H2. intros [= <-]. split; [|split]; cbn; auto; [now constructor|].
    rewrite requests_app. cbn. now rewrite app_nil_r.
  Qed.
  Lemma step_reply' ctl t : keeps (stepped ctl) (reply t) (stepped ctl).
  Proof.
    intros c c' u H R. pose proof R as R'. unfold reply in R'. unfold stepped in *. destruct (c_owed c) eqn:O; [|discriminate].
    pose proof (step_reply ctl t _ _ _ H R) as S. destruct S as (S1 & S2 & S3). rewrite S2. repeat split; auto.
  Qed.
  Lemma step_forward ctl b j : keeps (stepping ctl b) (forward_event E j) (stepping ctl b).
  Proof.
    intros c c' u H. unfold forward_event.
    assert (H1 : stepping ctl b (log (ACallback j) c)) by (eapply step_other; [..|exact H|reflexivity]; discriminate).
    match goal with |- ?p ?c1 = _ -> _ => assert (K : keeps (stepping ctl b) p (stepping ctl b)); [|intros R; eapply K; eauto] end.
    eapply keeps_bind; [apply keeps_lift|intros _]. apply keeps_bind with (J := stepping ctl b); [|intros n].
    { intros c0 c1 n (S1 & S2 & S3) [= <- _]. split; auto. }
    apply keeps_bind with (J := stepping ctl b); [|intros ph]. { intros c0 c1 ph S [= <- _]. exact S. }
    eapply keeps_bind; [apply keeps_lift|intros w]. apply step_other; discriminate.
  Qed.
  Lemma step_request ctl b j : keeps (stepping ctl b) (send_dap_request j) (stepping ctl b).
  Proof. eapply keeps_bind; [apply keeps_lift|intros t]. apply step_other; discriminate. Qed.
  Lemma step_ucalls ctl b l : keeps (stepping ctl b) (ucalls E l) (stepping ctl b).
  Proof.
    induction l as [|[j|j] l IH]; cbn [ucalls]; [apply keeps_ret| |]; (eapply keeps_bind; [|intros _; exact IH]); auto using step_forward, step_request.
  Qed.
  Lemma step_event ctl b j : keeps (stepping ctl b) (handle_event E j) (stepping ctl b).
  Proof.
    intros c c' u H. unfold handle_event. assert (H1 : stepping ctl b (log (AEvent j) c)) by (eapply step_other; [..|exact H|reflexivity]; discriminate).
    cbn. destruct (dp_event E _ _ j) as [l r]. intros R. eapply (keeps_bind _ _ _ _ _ (step_ucalls ctl b l) (fun _ => keeps_lift _ r)); eauto.
  Qed.
  Lemma keeps_stepped {A} ctl (p : D A) : (forall b, keeps (stepping ctl b) p (stepping ctl b)) -> keeps (stepped ctl) p (stepped ctl).
  Proof. intros K c c' a H R. pose proof (K _ _ _ _ H R) as (S1 & S2 & S3). unfold stepped. rewrite S2. repeat split; auto. Qed.
  Lemma step_message ctl raw : keeps (stepped ctl) (process_message E raw) (stepped ctl).
  Proof.
    unfold process_message. eapply keeps_bind; [apply keeps_lift|intros j]. eapply keeps_bind; [apply keeps_lift|intros [ty j']].
    destruct (json_eqb ty (JStr "event")). - apply keeps_stepped. intros b. apply step_event.
    - eapply keeps_bind; [apply keeps_lift|intros [cmd j'']]. eapply keeps_bind; [|intros _; apply step_reply'].
      destruct (json_eqb cmd _); [|apply keeps_ret]. intros c c' u H [= <-]. exact H.
  Qed.
  Lemma step_queue ctl q : keeps (stepped ctl) (process_queue E q) (stepped ctl).
  Proof.
    induction q as [|raw q IH]; intros c c' u H; cbn [process_queue]; [intros [= <-]; exact H|].
    assert (H1 : stepped ctl (set_queue (raw :: q) c)) by exact H.
    destruct (process_message E raw (set_queue (raw :: q) c)) as [c1 [[]|e|w|]] eqn:M; try discriminate.
    intros R. refine (IH c1 c' u _ R). exact (step_message ctl raw _ _ _ H1 M).
  Qed.
  Lemma step_init ctl : keeps (stepping ctl true) (handle_init_sequence E) (stepping ctl false).
  Proof.
    unfold handle_init_sequence.
    assert (W : forall cond, keeps (stepping ctl true) (wait_for_message cond) (stepping ctl true)).
    { intros cond. apply keeps_rest; [intros c; apply wait_rest|apply stepping_rest]. }
    repeat (eapply keeps_bind; [first [apply W|apply keeps_lift|apply step_request|apply step_forward]|]; try intros [? ?]; intros).
    apply step_reply.
  Qed.
  Lemma step_control ctl c c' u : stepping ctl false c -> handle_control_socket E c = (c', Done u) -> stepped ctl c'.
  Proof.
    intros (H1 & H2 & H3). unfold handle_control_socket. destruct (c_ctl c) as [|m r] eqn:Ec; [discriminate|].
    assert (S : stepping ctl true (log (AForward m) (set_ctl r true c))).
    { split; [|split]; cbn; auto; [now constructor|]. rewrite requests_app, <- app_assoc. cbn. congruence. }
    destruct (c_attach c) eqn:Ea; cbn [c_attach set_ctl]; rewrite Ea; [|intros [= <- _]; exact S].
    unfold dbind at 1 2 3 4, dlift, dmod. destruct (substr _ _ _) as [tp| |]; cbn [io_of]; try discriminate.
    destruct (parse tp) as [j| |]; cbn [io_of]; try discriminate. destruct (jget_mut "command" j) as [[cmd j']| |]; cbn [io_of]; try discriminate.
    destruct (json_eqb cmd (JStr "attach")); [|intros [= <- _]; exact S].
    unfold dbind. destruct (handle_init_sequence E _) as [c1 [[]|e|w|]] eqn:I; try discriminate. intros [= <- _].
    destruct (step_init ctl _ _ _ S I) as (S1 & S2 & S3). repeat split; cbn; auto. now rewrite S2.
  Qed.
  Lemma step_iteration ctl h k t c c' u : polled h k t c -> stepped ctl c -> iteration E h k t c = (c', Done u) -> stepped ctl c'.
  Proof.
    intros (_ & _ & Hk & _) H. unfold iteration, dbind.
    destruct (when h handle_header_socket c) as [c1 [[]|e|w|]] eqn:Eh; try discriminate.
    assert (H1 : stepped ctl c1 /\ c_owed c1 = c_owed c).
    { destruct h; cbn [when] in Eh; [|injection Eh as <-; auto]. unfold handle_header_socket in Eh. destruct (c_hdr c) as [|m r]; [discriminate|]. injection Eh as <-.
      split; auto. eapply (step_other ctl (c_owed c) (AAck false)); [..|reflexivity]; try discriminate. exact H. }
    destruct H1 as [H1 Ho]. destruct (when k (handle_control_socket E) c1) as [c2 [[]|e|w|]] eqn:Ek; try discriminate.
    assert (H2 : stepped ctl c2).
    { destruct k; cbn [when] in Ek; [|injection Ek as <-; auto]. eapply step_control; eauto. unfold stepped in H1. rewrite Ho in H1.
      destruct (Hk eq_refl) as [_ Hf]. now rewrite Hf in H1. }
    destruct (when t handle_tcp_socket c2) as [c3 [[]|e|w|]] eqn:Et; try discriminate.
    assert (H3 : stepped ctl c3).
    { destruct t; cbn [when] in Et; [|injection Et as <-; auto]. unfold handle_tcp_socket in Et. destruct (handle_tcp _ _) as [[net q] o]. injection Et as <- _. exact H2. }
    apply step_queue. exact H3.
  Qed.
  Theorem serves_step ctl c c' : stepped ctl c -> serves E c c' -> stepped ctl c'.
  Proof. intros H S. induction S as [|c h k t c1 c2 _ Hp Hi _ IH]; auto. apply IH. eapply step_iteration; eauto. Qed.
  Lemma alternates_count l b : alternates l b -> List.length (requests l) = List.length (replies l) + (if b then 1 else 0).
  Proof.
    induction 1 as [|l x H IH|l t H IH|l a o H IH N1 N2]; auto; rewrite requests_app, replies_app, !app_length, IH; cbn; try lia.
    destruct a; cbn; try lia. - now elim (N1 bytes). - now elim (N2 text).
  Qed.
  Theorem lock_step net ctl hdr c0 c : start_debugger E (c_init net ctl hdr) = (c0, Done tt) -> serves E c0 c ->
    alternates (c_log c) (c_owed c) /\ exists connect, ctl = (connect :: requests (c_log c) ++ c_ctl c)%list.
  Proof.
    unfold start_debugger. cbn. destruct ctl as [|m r]; [discriminate|]. intros [= <-] S.
    apply (serves_step r) in S.
    - destruct S as (A & _ & R). split; auto. exists m. now rewrite R.
    - split; [|split]; cbn; auto. apply (alt_other [] (AAck true) false); [constructor|discriminate|discriminate].
  Qed.
End LockStep.

(** ** Published events *)
Definition always {A} (I : client -> Prop) (p : D A) : Prop := forall c, I c -> I (fst (p c)).
Lemma always_bind {A B} I (p : D A) (f : A -> D B) : always I p -> (forall a, always I (f a)) -> always I (dbind p f).
Proof. intros Hp Hf c H. specialize (Hp c H). unfold dbind. destruct (p c) as [c1 [a|e|w|]]; auto. now apply Hf. Qed.
Lemma always_lift {A} I (r : res A) : always I (dlift r).
Proof. intros c H. exact H. Qed.
Lemma always_ret {A} I (a : A) : always I (dret a).
Proof. intros c H. exact H. Qed.

Local Arguments acks : simpl never.
Section Publish.
  Context (E : dapenv).
  Definition publishing (hdrs : list string) (c : client) : Prop :=
    (exists used, hdrs = (used ++ c_hdr c)%list /\ acks (c_log c) = List.length used /\ c_parent c = last used "") /\
    (forall a w b, c_log c = (a ++ APublish w :: b)%list -> published E hdrs a w).

  Lemma acks_app a b : acks (a ++ b) = acks a + acks b.
  Proof. unfold acks. now rewrite filter_app, app_length. Qed.
  Lemma snoc_split {A} (l : list A) x a y b : (l ++ [x])%list = (a ++ y :: b)%list ->
    (exists b', b = (b' ++ [x])%list /\ l = (a ++ y :: b')%list) \/ (b = [] /\ y = x /\ l = a).
  Proof.
    intros H. destruct b as [|z b0] using rev_ind.
    - right. apply app_inj_tail in H. intuition congruence.
    - left. clear IHb0. replace (a ++ y :: b0 ++ [z])%list with ((a ++ y :: b0) ++ [z])%list in H by now rewrite <- app_assoc.
      apply app_inj_tail in H as [-> ->]. eauto.
  Qed.
  Lemma pub_log hdrs a : (forall w, a <> APublish w) -> a <> AAck false -> always (publishing hdrs) (dmod (log a)).
  Proof.
    intros N1 N2 c [(used & U1 & U2 & U3) P]. split.
    - exists used. cbn. rewrite acks_app. replace (acks [a]) with 0; [rewrite Nat.add_0_r; auto|]. destruct a; auto. destruct c0; auto. now elim N2.
    - cbn. intros u w b H. apply snoc_split in H as [(b' & -> & H)|(_ & H & _)]; eauto. now elim (N1 w).
  Qed.
  Lemma pub_rest {A} hdrs (p : D A) : (forall c, c_hdr (fst (p c)) = c_hdr c /\ c_parent (fst (p c)) = c_parent c /\ c_log (fst (p c)) = c_log c) -> always (publishing hdrs) p.
  Proof. intros R c H. destruct (R c) as (R1 & R2 & R3). unfold publishing. now rewrite R1, R2, R3. Qed.
  Lemma pub_wait hdrs cond : always (publishing hdrs) (wait_for_message cond).
  Proof. apply pub_rest. intros c. pose proof (wait_rest cond c) as (A1 & A2 & A3 & A4 & A5 & A6 & A7 & A8). auto. Qed.
  Lemma pub_reply hdrs t : always (publishing hdrs) (reply t).
  Proof.
    intros c H. unfold reply. destruct (c_owed c); auto. assert (H' : publishing hdrs (set_ctl (c_ctl c) false c)) by exact H.
    eapply (pub_log hdrs (AReply t)) in H'; [exact H'|discriminate|discriminate].
  Qed.
  Lemma header_at_used hdrs c : publishing hdrs c -> forall a, acks a = acks (c_log c) -> header_at hdrs a = c_parent c.
  Proof.
    intros [(used & -> & U2 & ->) _] a Ha. unfold header_at. rewrite Ha, U2, firstn_app, Nat.sub_diag, firstn_all. cbn. now rewrite app_nil_r.
  Qed.
  Lemma pub_forward hdrs j : always (publishing hdrs) (forward_event E j).
  Proof.
    intros c H. unfold forward_event, dbind, dlift, dmod.
    assert (H1 : publishing hdrs (log (ACallback j) c)) by (apply (pub_log hdrs (ACallback j)); [discriminate|discriminate|exact H]).
    destruct (dp_callback E _ j) as [[]| |]; cbn [io_of fst]; auto.
    cbn [c_parent set_ids log c_ids]. remember (if String.eqb (c_parent c) "" then Done (JObj []) else io_of (parse (c_parent c))) as ph eqn:Eph.
    destruct ph as [ph| | |]; auto.
    match goal with |- context [pub_serialize _ _ _ ?m] => set (msg := m) end.
    destruct (pub_serialize (dp_crypto E) (dp_auth E) EStrict msg) as [w| |] eqn:W; cbn [io_of fst]; auto.
    destruct H1 as [U P]. split.
    - cbn in U |- *. destruct U as (used & U1 & U2 & U3). exists used. rewrite acks_app, U2. unfold acks. cbn. rewrite Nat.add_0_r. auto.
    - cbn. intros a w' b Hl. apply snoc_split in Hl as [(b' & -> & Hl)|(-> & Hw & <-)]; [apply (P a w' b'); exact Hl|].
      injection Hw as ->. unfold published. exists (c_log c), j, (c_ids c), ph. split; auto. split.
      + rewrite (header_at_used hdrs c H) by (rewrite acks_app; unfold acks at 2; cbn; lia). unfold parent_of. destruct (String.eqb_spec (c_parent c) ""); [left; split; congruence|right].
        split; auto. destruct (parse (c_parent c)); cbn in Eph; congruence.
      + exact W.
  Qed.
  Lemma pub_request hdrs j : always (publishing hdrs) (send_dap_request j).
  Proof. apply always_bind; [apply always_lift|intros t]. apply pub_log; discriminate. Qed.
  Lemma pub_ucalls hdrs l : always (publishing hdrs) (ucalls E l).
  Proof. induction l as [|[j|j] l IH]; cbn [ucalls]; [apply always_ret| |]; apply always_bind; auto using pub_forward, pub_request. Qed.
  Lemma pub_event hdrs j : always (publishing hdrs) (handle_event E j).
  Proof.
    intros c H. unfold handle_event. assert (H1 : publishing hdrs (log (AEvent j) c)) by (apply (pub_log hdrs (AEvent j)); [discriminate|discriminate|exact H]).
    cbn. destruct (dp_event E _ _ j) as [l r]. apply (always_bind (publishing hdrs) (ucalls E l) (fun _ => dlift r)); [apply pub_ucalls|intros _; apply always_lift|exact H1].
  Qed.
  Lemma pub_message hdrs raw : always (publishing hdrs) (process_message E raw).
  Proof.
    apply always_bind; [apply always_lift|intros j]. apply always_bind; [apply always_lift|intros [ty j']].
    destruct (json_eqb ty _); [apply pub_event|]. apply always_bind; [apply always_lift|intros [cmd j'']]. apply always_bind; [|intros _; apply pub_reply].
    destruct (json_eqb cmd _); [|apply always_ret]. intros c H. exact H.
  Qed.
  Lemma pub_queue hdrs q : always (publishing hdrs) (process_queue E q).
  Proof.
    induction q as [|raw q IH]; intros c H; cbn [process_queue]; [exact H|].
    pose proof (pub_message hdrs raw (set_queue (raw :: q) c) H) as M. destruct (process_message E raw _) as [c1 [[]| | |]]; auto.
  Qed.
  Lemma pub_init hdrs : always (publishing hdrs) (handle_init_sequence E).
  Proof.
    unfold handle_init_sequence.
    repeat (apply always_bind; [first [apply pub_wait|apply always_lift|apply pub_request|apply pub_forward]|]; try intros [? ?]; intros). apply pub_reply.
  Qed.
  Lemma pub_control hdrs : always (publishing hdrs) (handle_control_socket E).
  Proof.
    intros c H. unfold handle_control_socket. destruct (c_ctl c) as [|m r]; auto.
    assert (H1 : publishing hdrs (set_ctl r true c)) by exact H. revert H1. generalize (set_ctl r true c). intros c1 H1.
    assert (L : always (publishing hdrs) (dmod (log (AForward m)))) by (apply pub_log; discriminate).
    destruct (c_attach c1); [|exact (L _ H1)].
    match goal with |- publishing hdrs (fst (?p c1)) => assert (Q : always (publishing hdrs) p); [|exact (Q _ H1)] end.
    apply always_bind; [apply always_lift|intros tp]. apply always_bind; [apply always_lift|intros j]. apply always_bind; [exact L|intros _].
    apply always_bind; [apply always_lift|intros [cmd j']]. destruct (json_eqb cmd _); [|apply always_ret].
    apply always_bind; [apply pub_init|intros _]. intros c2 H2. exact H2.
  Qed.
  Lemma pub_header hdrs : always (publishing hdrs) handle_header_socket.
  Proof.
    intros c H. unfold handle_header_socket. destruct (c_hdr c) as [|m r] eqn:Eh; auto. destruct H as [(used & U1 & U2 & U3) P]. split.
    - exists (used ++ [m])%list. cbn. rewrite <- app_assoc, acks_app, app_length, last_last, U2. unfold acks. cbn. split; [now rewrite U1, Eh|auto].
    - cbn. intros a w b Hl. apply snoc_split in Hl as [(b' & -> & Hl)|(_ & Hl & _)]; [eauto|discriminate].
  Qed.
  Lemma pub_tcp hdrs : always (publishing hdrs) handle_tcp_socket.
  Proof. apply pub_rest. intros c. unfold handle_tcp_socket. destruct (handle_tcp _ _) as [[net q] o]. auto. Qed.
  Lemma pub_iteration hdrs h k t : always (publishing hdrs) (iteration E h k t).
  Proof.
    unfold iteration. repeat (apply always_bind; [|intros _]).
    - destruct h; [apply pub_header|apply always_ret].
    - destruct k; [apply pub_control|apply always_ret].
    - destruct t; [apply pub_tcp|apply always_ret].
    - intros c. apply pub_queue.
  Qed.
  Theorem published_ok net ctl hdrs c0 c h k t : start_debugger E (c_init net ctl hdrs) = (c0, Done tt) -> serves E c0 c ->
    forall a w b, c_log (fst (iteration E h k t c)) = (a ++ APublish w :: b)%list -> published E hdrs a w.
  Proof.
    intros S0 S. assert (P : publishing hdrs c).
    { assert (P0 : publishing hdrs c0).
      { unfold start_debugger in S0. cbn in S0. destruct ctl as [|m r]; [discriminate|]. injection S0 as <-. split; cbn; [exists []; auto|].
        intros a w b H. destruct a as [|x [|y a]]; discriminate. }
      clear S0. induction S as [|c h' k' t' c1 c2 _ _ Hi _ IH]; auto. apply IH. pose proof (pub_iteration hdrs h' k' t' c P0) as Q. now rewrite Hi in Q. }
    apply (pub_iteration hdrs h k t c P).
  Qed.
End Publish.
