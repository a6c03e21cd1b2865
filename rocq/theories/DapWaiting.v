(** When the client waits for an attach request. *)
From Verif Require Import Base BaseFacts Json JsonText JsonTextProofs JsonParseProofs Utf8 Auth Message MessageProofs Dap DapSpec DapProofs DapQueue DapMain DapAttach DapSessionSpec DapSession.

(** A request of the front end, as the debugger frames it, that asks to attach. *)
Definition attach_request (m : string) : Prop :=
  exists content req, m = dap_frame content /\ parse content = Ok req /\ jfield "command" req = Some (JStr "attach").
Definition framed (m : string) : Prop := exists content, m = dap_frame content.

Section Waiting.
  Context (E : dapenv) (ctl : list string) (F : Forall framed ctl).
  Definition waiting (c : client) : Prop :=
    c_attach c = true <-> dp_parallel E = true /\ Forall (fun m => ~ attach_request m) (requests (c_log c)).
  Lemma same_requests c c' : stepped ctl c -> stepped ctl c' -> c_ctl c' = c_ctl c -> requests (c_log c') = requests (c_log c).
  Proof. intros (_ & _ & H) (_ & _ & H') Ec. rewrite <- H, Ec in H'. now apply app_inv_tail in H'. Qed.
  Lemma init_ctl r : keeps (fun c => c_ctl c = r) (handle_init_sequence E) (fun c => c_ctl c = r).
  Proof.
    set (I := fun c : client => c_ctl c = r). unfold handle_init_sequence.
    assert (W : forall cond, keeps I (wait_for_message cond) I).
    { intros cond. apply keeps_rest; [intros c; apply wait_rest|]. intros c c' (Ec & _) H. unfold I in *. congruence. }
    assert (Q : forall A (p : D A), quiet p -> keeps I p I).
    { intros A p Hq c c' a H R. specialize (Hq c). rewrite R in Hq. destruct Hq as ((_ & K & _) & _). cbn in K. unfold I in *. congruence. }
    repeat (eapply keeps_bind; [first [apply W|apply keeps_lift|apply Q, quiet_request|apply Q, quiet_forward]|]; try intros [? ?]; intros).
    intros c c' u H. unfold reply. destruct (c_owed c); [|discriminate]. intros [= <-]. exact H.
  Qed.
  Lemma waiting_control c c' : stepping ctl false c -> waiting c -> handle_control_socket E c = (c', Done tt) -> waiting c'.
  Proof.
    intros S W H. pose proof (step_control E ctl _ _ _ S H) as S'. destruct S as (_ & _ & Rc), S' as (_ & _ & Rc').
    unfold handle_control_socket in H. destruct (c_ctl c) as [|m r] eqn:Ec; [discriminate|].
    assert (Fm : framed m). { rewrite Forall_forall in F. apply F. rewrite <- Rc. apply in_app_iff. right. now left. }
    assert (Rq : c_ctl c' = r -> requests (c_log c') = (requests (c_log c) ++ [m])%list).
    { intros Er. rewrite Er, <- Rc in Rc'. change (m :: r) with ([m] ++ r)%list in Rc'. rewrite app_assoc in Rc'. now apply app_inv_tail in Rc'. }
    cbn [c_attach set_ctl] in H. unfold waiting in *. destruct (c_attach c) eqn:At.
    - destruct (proj1 W eq_refl) as [P N]. destruct Fm as (content & ->). destruct (frame_sep content) as (p & Sp & Sub). rewrite Sp in H. cbn zeta in H. rewrite Sub in H.
      apply dbind_done in H as (c3 & tp & H3 & H). apply dlift_done in H3 as [-> Et]. injection Et as <-.
      apply dbind_done in H as (c3 & jm & H3 & H). apply dlift_done in H3 as [-> Pj].
      apply dbind_done in H as (c3 & [] & H3 & H). injection H3 as <-.
      apply dbind_done in H as (c3 & [cmd jm'] & H3 & H). apply dlift_done in H3 as [-> G].
      destruct (jget_mut_field _ _ _ _ G) as (G1 & _ & _).
      destruct (json_eqb cmd (JStr "attach")) eqn:B.
      + apply json_eqb_str, G1 in B. apply dbind_done in H as (c3 & [] & H3 & H). injection H as <-.
        assert (Er : c_ctl c3 = r) by (refine (init_ctl r _ _ _ _ H3); reflexivity). cbn [c_attach c_log c_ctl set_attach] in *. rewrite (Rq Er). split; [discriminate|].
        intros [_ N']. apply Forall_app in N' as [_ N']. inversion N' as [|? ? Na _]; subst. elim Na. exists content, jm. auto.
      + injection H as <-. cbn [c_attach c_log c_ctl log set_ctl] in *. rewrite (Rq eq_refl), At. split; auto. intros _. split; auto. apply Forall_app. split; auto.
        constructor; auto. intros (content' & req & Ef & Pr & C).
        assert (content' = content). { destruct (frame_sep content') as (p' & Sp' & Sub'). rewrite <- Ef in Sp', Sub'. congruence. } subst content'.
        assert (req = jm) by congruence. subst req. apply G1, json_eqb_str in C. congruence.
    - injection H as <-. cbn [c_attach c_log c_ctl log set_ctl] in *. rewrite (Rq eq_refl), At. split; [discriminate|]. intros [P N]. apply Forall_app in N as [N _]. tauto.
  Qed.
  Lemma waiting_iteration h k t c c' : polled h k t c -> stepped ctl c -> waiting c -> iteration E h k t c = (c', Done tt) -> waiting c'.
  Proof.
    intros (_ & _ & Hk & _) S W H. pose proof H as Hall. unfold iteration in H. apply dbind_done in H as (c1 & [] & H1 & H).
    assert (X1 : stepped ctl c1 /\ waiting c1 /\ c_owed c1 = c_owed c).
    { destruct h; cbn [when] in H1; [|injection H1 as <-; auto]. unfold handle_header_socket in H1. destruct (c_hdr c) as [|m r]; [discriminate|]. injection H1 as <-.
      split; [|split; auto]. { eapply (step_other ctl (c_owed c) (AAck false)); [..|reflexivity]; try discriminate. exact S. }
      unfold waiting in *. cbn [c_attach c_log log set_hdr]. rewrite requests_app. cbn [requests flat_map]. now rewrite app_nil_r. }
    destruct X1 as (S1 & W1 & O1). apply dbind_done in H as (c2 & [] & H2 & H).
    assert (X2 : stepped ctl c2 /\ waiting c2).
    { destruct k; cbn [when] in H2; [|injection H2 as <-; auto]. unfold stepped in S1. rewrite O1, (proj2 (Hk eq_refl)) in S1.
      split; [eapply step_control; eauto|eapply waiting_control; eauto]. }
    destruct X2 as (S2 & W2). apply dbind_done in H as (c3 & [] & H3 & H).
    assert (X3 : stepped ctl c3 /\ waiting c3).
    { destruct t; cbn [when] in H3; [|injection H3 as <-; auto]. unfold handle_tcp_socket in H3. destruct (handle_tcp _ _) as [[net q] o]. injection H3 as <- _. split; [exact S2|exact W2]. }
    destruct X3 as (S3 & W3). unfold process_message_queue in H. pose proof (step_queue E ctl _ _ _ _ S3 H) as S4.
    destruct (process_queue_ok E _ _ _ H) as (_ & _ & _ & _ & _ & (_ & Ec & _ & _ & Ea & _) & _).
    unfold waiting in *. now rewrite Ea, (same_requests _ _ S3 S4 Ec).
  Qed.
  Lemma waiting_serves c c' : stepped ctl c -> waiting c -> serves E c c' -> waiting c'.
  Proof.
    intros S W R. induction R as [|c h k t c1 c2 _ Hp Hi _ IH]; auto. apply IH; [eapply step_iteration; eauto|eapply waiting_iteration; eauto].
  Qed.
End Waiting.
Theorem waiting_ok E net connect ctl hdr c0 c : Forall framed ctl ->
  start_debugger E (c_init net (connect :: ctl) hdr) = (c0, Done tt) -> serves E c0 c ->
  (c_attach c = true <-> dp_parallel E = true /\ Forall (fun m => ~ attach_request m) (requests (c_log c))).
Proof.
  intros F H R. unfold start_debugger in H. cbn in H. injection H as <-. refine (waiting_serves E ctl F _ _ _ _ R).
  - split; [|split]; cbn; auto. apply (alt_other [] (AAck true) false); [constructor|discriminate|discriminate].
  - unfold waiting. cbn. split; [intros H; split; auto|tauto].
Qed.
