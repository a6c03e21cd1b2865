(** Sequences of messages: counter, history, identifiers; start of the kernel. *)
From Verif Require Import Base BaseFacts Json JsonText Utf8 Utf8Proofs JsonTextProofs Auth Message MessageProofs WireSpec History HistoryProofs Comm CommSpec Tree Kernel KernelSpec KernelProofs KernelRun KernelHandlers KernelExec KernelDispatch KernelLemmas KernelExecProps KernelReplies.

(** The number of elements satisfying [P]. *)
Inductive tally {X} (P : X -> Prop) : list X -> nat -> Prop :=
| ta_nil : tally P [] 0
| ta_in x l n : P x -> tally P l n -> tally P (x :: l) (S n)
| ta_out x l n : ~ P x -> tally P l n -> tally P (x :: l) n.
Lemma tally_det {X} (P : X -> Prop) l n : tally P l n -> forall n', tally P l n' -> n = n'.
Proof.
  induction 1 as [|x l n Hx Ht IH|x l n Hx Ht IH]; intros n' H'; inversion H'; subst; auto; try contradiction.
Qed.

(** The message identifiers of a trace. *)
Definition event_id (e : event) : list string :=
  match emitted e with Some h => match sfield "msg_id" h with Some i => [i] | None => [] end | None => [] end.
Definition event_ids (evs : list event) : list string := flat_map event_id evs.

Section Session.
  Context {U : Type} (E : env U).
  Implicit Types (s : kstate U).

  (** Messages handled one after the other, all to the end. *)
  Inductive session : list (channel * frames) -> kstate U -> kstate U -> Prop :=
  | se_nil s : session [] s s
  | se_cons c w msgs s s1 s' : run (dispatch E w c) s = (s1, Ok tt) -> session msgs s1 s' -> session ((c, w) :: msgs) s s'.
  (** Messages handled one after the other, whatever their outcome. *)
  Inductive serves : list (channel * frames) -> kstate U -> kstate U -> Prop :=
  | sv_nil s : serves [] s s
  | sv_cons c w msgs s s' : serves msgs (fst (run (dispatch E w c) s)) s' -> serves ((c, w) :: msgs) s s'.

  (** The message is an execute request with parameters [p]. *)
  Definition executes (w : frames) (p : xparams) : Prop :=
    exists m, accepted E w m /\ typed (m_header (m_base m)) "execute_request" /\ exec_params (m_content (m_base m)) p.
  (** A non-silent well-formed execute request. *)
  Definition visible (x : channel * frames) : Prop := exists p, executes (snd x) p /\ x_silent p = false.
  (** The handling of the message took [s] to [s'], stored the execution [p] and sent a reply. *)
  Definition stored (w : frames) (p : xparams) s s' : Prop :=
    executes w p /\ stores p = true /\ exists evs, k_trace s' = (k_trace s ++ evs)%list /\ Exists is_send evs.
  (** The stored executions of a session. *)
  Inductive recorded : list (channel * frames) -> kstate U -> list xparams -> Prop :=
  | rc_nil s : recorded [] s []
  | rc_store c w msgs s p l : let s1 := fst (run (dispatch E w c) s) in stored w p s s1 -> recorded msgs s1 l -> recorded ((c, w) :: msgs) s (p :: l)
  | rc_skip c w msgs s l : let s1 := fst (run (dispatch E w c) s) in (forall p, ~ stored w p s s1) -> recorded msgs s1 l -> recorded ((c, w) :: msgs) s l.

  Context (raw : string -> Prop) (Hq : quiet E) (Hu : env_utf8 E) (HU : user_publishes E raw).

  Lemma executes_det w p p' : executes w p -> executes w p' -> p = p'.
  Proof.
    intros (m & Ha & _ & mm & Hc & F1 & F2 & F3 & F4 & F5 & F6 & F7) (m' & Ha' & _ & mm' & Hc' & G1 & G2 & G3 & G4 & G5 & G6 & G7).
    unfold accepted in *. assert (m' = m) by congruence; subst. rewrite Hc in Hc'. injection Hc' as <-.
    apply str_field_value in F1, G1. apply bool_field_value in F2, F3, F6, F7, G2, G3, G6, G7. apply num_field_value in F4, G4. apply any_field_value in F5, G5.
    destruct p, p'; cbn in *. congruence.
  Qed.
  (** A message that is not a well-formed execute request. *)
  Lemma dispatch_other w c s s' r : run (dispatch E w c) s = (s', r) -> (forall p, ~ executes w p) ->
    k_count s' = k_count s /\ k_history s' = k_history s /\ k_shell s' = k_shell s.
  Proof.
    intros Hrun Hno. destruct (deserialize_cases E w) as [[m Ha]|[[e Hr]|Hub]].
    - destruct (value_string_cases "msg_type" "" (m_header (m_base m))) as [[ty Hty]|[e He]].
      + apply typed_value in Hty. destruct (String.eqb_spec ty "execute_request") as [->|Hne]; [|eapply other_frame; eauto].
        destruct (run_dispatch_accepted E w c m _ s Hq Hu Ha Hty) as (fb & Hfb & HD). rewrite Hrun in HD.
        set (sp := parented (m_ids m) (m_header (m_base m)) c s) in *. set (s0 := with_status E "busy" c fb sp) in *.
        assert (Hh : fst (run (handle E "execute_request" m c) s0) = s0).
        { destruct (run_handle E "execute_request" m c s0 (accepted_content_utf8 _ _ _ Ha)) as [[X _]|(hh & Hf & Hst & _)]; [discriminate|].
          injection Hf as <-. rewrite Hst. destruct (execute_ill_formed E m c s0) as [->|[x ->]]; auto. intros p Hp. apply (Hno p). exists m; auto. }
        destruct (run (handle E "execute_request" m c) s0) as [s1 [[]|e|u]]; cbn [fst] in Hh; subst s1; try (injection HD as -> ->; auto).
        destruct (status_serializes E "idle" c s0 Hu) as [fi Hfi].
        { unfold s0, sp. cbn. rewrite upd_same. eapply accepted_header_utf8; eauto. } { apply status_utf8. }
        rewrite (run_status E "idle" c s0 fi Hq Hfi) in HD. injection HD as -> ->. auto.
      + destruct (run_dispatch_untyped E w c m s Hq Hu Ha) as (fb & what & Hfb & HD).
        { intros ty Hty. apply typed_value in Hty. congruence. }
        rewrite Hrun in HD. injection HD as -> ->. auto.
    - pose proof (run_dispatch_rejected E w c s (ex_intro _ _ Hr)) as X. rewrite Hrun in X. injection X as -> ->. auto.
    - unfold dispatch in Hrun. rewrite run_bind, run_catch, run_bind, run_res in Hrun. destruct (deserialize (e_crypto E) (e_auth E) w); try discriminate.
      injection Hrun as <- _. auto.
  Qed.
  Lemma dispatch_parents w c s s' r : run (dispatch E w c) s = (s', r) -> parents_utf8 s -> parents_utf8 s'.
  Proof.
    intros Hrun Hp. assert (Hset : forall m, accepted E w m -> k_phdr s' = upd_chan c (m_header (m_base m)) (k_phdr s) -> parents_utf8 s').
    { intros m Ha He c'. rewrite He, upd_idem. destruct (chan_eqb c c'); auto. eapply accepted_header_utf8; eauto. }
    destruct (deserialize_cases E w) as [[m Ha]|[[e Hr]|Hub]].
    - destruct (value_string_cases "msg_type" "" (m_header (m_base m))) as [[ty Hty]|[e He]].
      + apply typed_value in Hty. destruct (dispatch_dispatched E raw Hq Hu HU w c m ty s s' r Ha Hty Hrun) as (busy & mid & rep & ab & ws & tail & T & B & _ & F & R & L & AB & W & TK & En & _ & _ & He & _).
        eapply Hset; eauto.
      + destruct (run_dispatch_untyped E w c m s Hq Hu Ha) as (fb & what & Hfb & HD).
        { intros ty Hty. apply typed_value in Hty. congruence. }
        rewrite Hrun in HD. injection HD as -> ->. apply (Hset m); auto.
    - pose proof (run_dispatch_rejected E w c s (ex_intro _ _ Hr)) as X. rewrite Hrun in X. injection X as -> ->. auto.
    - unfold dispatch in Hrun. rewrite run_bind, run_catch, run_bind, run_res in Hrun. destruct (deserialize (e_crypto E) (e_auth E) w); try discriminate.
      injection Hrun as <- _. auto.
  Qed.
  Lemma classic_executes w : (exists p, executes w p) \/ forall p, ~ executes w p.
  Proof.
    destruct (deserialize_cases E w) as [[m Ha]|Hn].
    2: { right. intros p (m & Ha & _). unfold accepted in Ha. destruct Hn as [[e He]|Hn]; [congruence | rewrite Ha in Hn; discriminate]. }
    assert (Hsame : forall m', accepted E w m' -> m' = m) by (unfold accepted in *; congruence).
    destruct (value_string_cases "msg_type" "" (m_header (m_base m))) as [[ty Hty]|[e He]].
    2: { right. intros p (m' & Ha' & Hty & _). rewrite (Hsame m' Ha') in Hty. apply typed_value in Hty. congruence. }
    destruct (String.eqb_spec ty "execute_request") as [->|Hne].
    2: { right. intros p (m' & Ha' & Hty' & _). rewrite (Hsame m' Ha') in Hty'. apply typed_value in Hty'. congruence. }
    destruct (classic_params (m_content (m_base m))) as [[p Hp]|Hno].
    - left. exists p, m. split; auto. split; [now apply typed_value | auto].
    - right. intros p (m' & Ha' & _ & Hp). rewrite (Hsame m' Ha') in Hp. now apply (Hno p).
  Qed.
  (** An execution that did not start because the counter is at its maximum. *)
  Lemma dispatch_overflow w c s s' r p : executes w p -> x_silent p = false -> k_count s = int_max -> run (dispatch E w c) s = (s', r) -> is_ub r = true.
  Proof.
    intros (m & Ha & Hty & Hp) Hs Hm Hrun. destruct (run_dispatch_accepted E w c m _ s Hq Hu Ha Hty) as (fb & Hfb & HD). rewrite Hrun in HD.
    set (sp := parented (m_ids m) (m_header (m_base m)) c s) in *. set (s0 := with_status E "busy" c fb sp) in *.
    assert (X : is_ub (snd (run (handle E "execute_request" m c) s0)) = true).
    { unfold handle. change (mfind "execute_request" (handlers E)) with (Some (execute_request E)). cbn beta iota.
      rewrite run_catch, (execute_params E m c p s0 Hp), run_catch. unfold exec_body, interp_execute. rewrite Hs.
      unfold get_metadata, now. rewrite !run_bind, run_kdo. cbn [kstep fst snd]. rewrite !run_ret. rewrite !run_bind, run_kdo. cbn [kstep fst snd].
      change (k_count (set_clock (S (k_clock s0)) s0)) with (k_count s). rewrite Hm, Z.eqb_refl. reflexivity. }
    destruct (run (handle E "execute_request" m c) s0) as [s1 [[]|e|u]]; try discriminate. injection HD as -> ->. reflexivity.
  Qed.

  Lemma out_no_send ph out : Forall (fun e => match e with
                       | EPublish c' m _ => c' = SHELL /\ m_parent_header (m_pbase m) = ph /\ exists ty, pub_type m = Some ty /\ raw ty
                       | EStdin _ _ | EInput _ _ => True
                       | _ => False end) out -> Forall (fun e => ~ is_send e) out.
  Proof. apply Forall_impl. intros e He (c & m & w & ->). exact He. Qed.

  (** One step: counter and history. *)
  Lemma step_execute w c s s' r p : run (dispatch E w c) s = (s', r) -> is_ub r = false -> parents_utf8 s -> executes w p ->
    k_count s' = (if x_silent p then k_count s else k_count s + 1)%Z /\
    ((stored w p s s' /\ k_history s' = (k_history s ++ [history_entry p])%list) \/ ((forall p', ~ stored w p' s s') /\ k_history s' = k_history s)).
  Proof.
    intros Hrun Hr Hp Hx.
    assert (Hmax : x_silent p = true \/ k_count s <> int_max).
    { destruct (x_silent p) eqn:Es; auto. right. intros Hm. pose proof (dispatch_overflow _ _ _ _ _ _ Hx Es Hm Hrun). congruence. }
    pose proof Hx as (m & Ha & Hty & Hpar).
    destruct (dispatch_executed E raw Hq Hu HU w c m p s s' r Ha Hty Hpar Hmax (Hp SHELL) Hrun) as (busy & evs & tail & T & B & En & inp & out & rest & -> & I & O & C & D).
    split; [exact C|].
    assert (Hnb : ~ is_send busy) by (eapply status_not_send; eauto).
    assert (Hnt : Forall (fun e => ~ is_send e) tail).
    { destruct En as [(_ & idle & -> & Hs & _)|[-> _]]; auto. constructor; auto. eapply status_not_send; eauto. }
    assert (Hni : Forall (fun e => ~ is_send e) inp).
    { destruct (x_silent p); [now subst|]. destruct I as (e & -> & m' & w' & id & -> & _). constructor; auto. intros (x1 & x2 & x3 & [=]). }
    pose proof (out_no_send _ _ O) as Hno.
    destruct D as [(-> & Hh & _)|(rep & ab & ws & st & -> & Hrep & Hh & _)].
    - right. split; auto. intros p' (_ & _ & evs' & T' & Hex). rewrite T in T'. apply app_inv_head in T'. subst evs'.
      apply Exists_exists in Hex as (e & Hin & He). rewrite app_nil_r in Hin.
      rewrite Forall_forall in Hnt, Hni, Hno. destruct Hin as [<-|Hin]; auto. apply in_app_or in Hin as [Hin|Hin]; [|eapply Hnt; eauto].
      apply in_app_or in Hin as [Hin|[<-|Hin]]; [eapply Hni; eauto | destruct He as (? & ? & ? & [=]) | eapply Hno; eauto].
    - rewrite Hh. destruct (stores p) eqn:Est.
      + left. split; auto. split; auto. split; auto. eexists. split; [exact T|]. apply Exists_exists. exists rep. split.
        * right. apply in_or_app. left. apply in_or_app. right. right. apply in_or_app. right. now left.
        * destruct Hrep as [(r' & w' & id & rty & -> & _) _]. eexists _, _, _. reflexivity.
      + right. rewrite app_nil_r. split; auto. intros p' (Hx' & Hs' & _). rewrite (executes_det _ _ _ Hx' Hx) in Hs'. congruence.
  Qed.

  (** ** Counter *)
  Lemma session_count msgs s s' : session msgs s s' -> parents_utf8 s ->
    exists n, tally visible msgs n /\ k_count s' = (k_count s + Z.of_nat n)%Z.
  Proof.
    induction 1 as [s|c w msgs s s1 s' Hrun Hses IH]; intros Hp.
    - exists 0. split; [constructor | lia].
    - destruct (IH (dispatch_parents _ _ _ _ _ Hrun Hp)) as (n & Ht & Hc).
      destruct (classic_executes w) as [[p Hx]|Hno].
      + destruct (step_execute _ _ _ _ _ _ Hrun eq_refl Hp Hx) as [C _]. destruct (x_silent p) eqn:Es.
        * exists n. split; [|congruence]. apply ta_out; auto. intros (p' & Hx' & Hs). cbn [snd] in Hx'. rewrite (executes_det _ _ _ Hx' Hx) in Hs. congruence.
        * exists (S n). split; [apply ta_in; auto; exists p; auto|]. lia.
      + destruct (dispatch_other _ _ _ _ _ Hrun Hno) as (C & _). exists n. split; [|congruence]. apply ta_out; auto. intros (p & Hx & _). now apply (Hno p).
  Qed.
  (** ** History *)
  Lemma session_history msgs s s' : session msgs s s' -> parents_utf8 s ->
    exists l, recorded msgs s l /\ k_history s' = (k_history s ++ List.map history_entry l)%list.
  Proof.
    induction 1 as [s|c w msgs s s1 s' Hrun Hses IH]; intros Hp.
    - exists []. split; [constructor | now rewrite app_nil_r].
    - destruct (IH (dispatch_parents _ _ _ _ _ Hrun Hp)) as (l & Ht & Hc).
      assert (E1 : fst (run (dispatch E w c) s) = s1) by now rewrite Hrun.
      destruct (classic_executes w) as [[p Hx]|Hno].
      + destruct (step_execute _ _ _ _ _ _ Hrun eq_refl Hp Hx) as [_ [[Hs Hh]|[Hs Hh]]].
        * exists (p :: l). split; [apply rc_store; rewrite E1; auto|]. rewrite Hc, Hh. cbn. now rewrite <- app_assoc.
        * exists l. split; [apply rc_skip; rewrite E1; auto|]. congruence.
      + destruct (dispatch_other _ _ _ _ _ Hrun Hno) as (_ & Hh & _). exists l. split; [|congruence].
        apply rc_skip; rewrite E1; auto. intros p (Hx & _). now apply (Hno p).
  Qed.

  (** ** Identifiers *)
  (** The trace was extended by well-formed messages with fresh numbers. *)
  Definition extends s s' : Prop :=
    exists evs, k_trace s' = (k_trace s ++ evs)%list /\ numbered E (k_guid s) evs (k_guid s') /\ Forall (well_sent E) evs.
  Lemma extends_trans s1 s2 s3 : extends s1 s2 -> extends s2 s3 -> extends s1 s3.
  Proof.
    intros (e1 & T1 & N1 & F1) (e2 & T2 & N2 & F2). exists (e1 ++ e2)%list. rewrite T2, T1, app_assoc. split; auto.
    split; [eapply numbered_app; eauto | apply Forall_app; auto].
  Qed.
  Lemma extends_refl s : extends s s.
  Proof. exists []. rewrite app_nil_r. repeat split; auto. constructor; lia. Qed.
  Lemma aborts_sent lo ws ab hi : aborts E lo ws ab hi -> Forall (well_sent E) ab.
  Proof. induction 1; auto. Qed.
  Lemma dispatch_extends w c s : extends s (fst (run (dispatch E w c) s)).
  Proof.
    destruct (run (dispatch E w c) s) as [s' r] eqn:Hrun. cbn [fst]. destruct (deserialize_cases E w) as [[m Ha]|[[e Hr]|Hub]].
    - destruct (value_string_cases "msg_type" "" (m_header (m_base m))) as [[ty Hty]|[e He]].
      + apply typed_value in Hty.
        destruct (dispatch_dispatched E raw Hq Hu HU w c m ty s s' r Ha Hty Hrun) as (busy & mid & rep & ab & ws & tail & T & B & Wb & F & R & L & (lo & hi & AB) & W & TK & En & N & _).
        eexists. split; [exact T|]. split; [exact N|]. constructor; auto. repeat (apply Forall_app; split).
        * eapply Forall_impl; [|exact F]. now intros e [].
        * eapply Forall_impl; [|exact R]. now intros e [].
        * eapply aborts_sent; eauto.
        * destruct En as [(_ & idle & -> & _ & Hw)|[-> _]]; auto.
      + destruct (run_dispatch_untyped E w c m s Hq Hu Ha) as (fb & what & Hfb & HD).
        { intros ty Hty. apply typed_value in Hty. congruence. }
        rewrite Hrun in HD. injection HD as -> ->. eexists [_]. split; [reflexivity|]. split; [|constructor; auto].
        apply (numbered_one E _ (parented (m_ids m) (m_header (m_base m)) c s) "status"). reflexivity.
    - pose proof (run_dispatch_rejected E w c s (ex_intro _ _ Hr)) as X. rewrite Hrun in X. injection X as -> ->. apply extends_refl.
    - unfold dispatch in Hrun. rewrite run_bind, run_catch, run_bind, run_res in Hrun. destruct (deserialize (e_crypto E) (e_auth E) w); try discriminate.
      injection Hrun as <- _. apply extends_refl.
  Qed.
  Lemma serves_extends msgs s s' : serves msgs s s' -> extends s s'.
  Proof. induction 1; [apply extends_refl | eapply extends_trans; [apply dispatch_extends | eauto]]. Qed.

  Lemma numbered_ids lo evs hi : numbered E lo evs hi ->
    exists ns, event_ids evs = List.map (e_guid E) ns /\ Forall (fun n => lo <= n) ns /\ NoDup ns.
  Proof.
    induction 1 as [lo hi H|lo n e h ty evs hi Hl He Hh Hn (ns & IH1 & IH2 & IH3)|lo e evs hi He Hn (ns & IH1 & IH2 & IH3)].
    - exists []. repeat constructor.
    - exists (n :: ns). unfold event_ids in *. cbn [flat_map]. rewrite IH1. unfold event_id. rewrite He.
      destruct Hh as (d & mm & -> & _ & Hid & _). unfold sfield. rewrite Hid. split; auto. split.
      + constructor; auto. eapply Forall_impl; [|exact IH2]. cbn. intros; lia.
      + constructor; auto. intros Hin. rewrite Forall_forall in IH2. apply IH2 in Hin. lia.
    - exists ns. unfold event_ids in *. cbn [flat_map]. unfold event_id at 1. rewrite He. auto.
  Qed.
  Lemma numbered_headers lo evs hi : numbered E lo evs hi -> forall e h, In e evs -> emitted e = Some h ->
    exists id ty, header_with h id ty (e_user_name E) (e_session_id E).
  Proof.
    induction 1 as [lo hi H|lo n e h ty evs hi Hl He Hh Hn IH|lo e evs hi He Hn IH]; intros e' h' Hin He'.
    - destruct Hin.
    - destruct Hin as [<-|Hin]; [|eauto]. rewrite He in He'. injection He' as <-. eauto.
    - destruct Hin as [<-|Hin]; [congruence | eauto].
  Qed.
  Lemma map_inj_NoDup {X Y} (f : X -> Y) l : (forall a b, f a = f b -> a = b) -> NoDup l -> NoDup (List.map f l).
  Proof.
    intros Hi. induction 1 as [|x l Hx Hl IH]; cbn; constructor; auto. intros Hin. apply in_map_iff in Hin as (y & Hy & Hin). apply Hi in Hy as ->. auto.
  Qed.

  (** ** Start *)
  Definition start_event (e : event) : Prop := exists w id m, e = EPublish SHELL m w /\
    header_with (m_header (m_pbase m)) id "status" (e_user_name E) (e_session_id E) /\
    m_topic m = "kernel_core." +++ e_kernel_id E +++ ".status" /\ m_parent_header (m_pbase m) = JObj [] /\ m_metadata (m_pbase m) = JObj [] /\
    m_content (m_pbase m) = JObj [("execution_state", JStr "starting")] /\ m_buffers (m_pbase m) = [] /\
    pub_serialize (e_crypto E) (e_auth E) (e_eh E) m = Ok w.
  Lemma build_start s : exists m w, run (build_start_msg E) s = (tick s, Ok (m, w)) /\ start_event (EPublish SHELL m w) /\
    numbered E (k_guid s) [EPublish SHELL m w] (k_guid (tick s)) /\ well_sent E (EPublish SHELL m w).
  Proof.
    set (m := {| m_topic := "kernel_core." +++ e_kernel_id E +++ ".status";
       m_pbase := {| m_header := hdr E s "status"; m_parent_header := empty; m_metadata := empty; m_content := jobj [("execution_state", JStr "starting")]; m_buffers := [] |} |}).
    destruct (pub_serialize_valid (e_crypto E) (e_auth E) (e_eh E) m) as [w Hw].
    { unfold base_parts. cbn [m m_pbase m_header m_parent_header m_metadata m_content]. destruct Hu as (U1 & U2 & U3 & U4).
      repeat apply Forall_cons; auto using utf8_empty.
      - unfold hdr. apply utf8_header; auto. apply utf8_lit; reflexivity.
      - apply utf8_obj. repeat constructor; cbn [fst snd]; auto using utf8_str; try (apply utf8_lit; reflexivity). apply utf8_str, utf8_lit; reflexivity. }
    exists m, w. split.
    { unfold build_start_msg. rewrite run_bind, run_new_header. cbv zeta. fold m. rewrite run_bind, run_res, Hw. reflexivity. }
    split. { exists w, (e_guid E (k_guid s)), m. split; auto. split; [apply header_with_make|]. auto 10. }
    split; [|exact Hw]. apply (numbered_one E _ s "status"). reflexivity.
  Qed.
  Lemma start_extends u q : let x := run (kernel_start E) (kinit u q) in extends (kinit u q) (fst x) /\ parents_utf8 (fst x).
  Proof.
    cbv zeta. unfold kernel_start. rewrite run_bind.
    assert (Hf : uframe E raw (kinit u q) (fst (run (embed E (e_configure E)) (kinit u q)))).
    { apply (frame_embed E raw (ua_input _ _ _ HU) (e_configure E) (ua_configure _ _ _ HU)). }
    destruct (run (embed E (e_configure E)) (kinit u q)) as [s1 r1]. cbn [fst] in Hf. destruct Hf as [_ F2 _ _ _ (evs & T & N & F)].
    assert (X : extends (kinit u q) s1 /\ parents_utf8 s1).
    { split; [exists evs; split; auto; split; auto; eapply Forall_impl; [|exact F]; now intros e []|].
      intros c. rewrite F2. cbn. apply utf8_empty. }
    destruct r1 as [[]|e|w]; auto. rewrite run_bind. destruct (build_start s1) as (m & w & -> & _ & Nm & Wm). rewrite run_emit. cbn [fst snd].
    destruct X as [X1 X2]. split; auto. eapply extends_trans; [exact X1|]. exists [EPublish SHELL m w]. split; [reflexivity|]. split; auto.
  Qed.
  (** User code that neither publishes nor asks for input. *)
  Definition publishes_nothing (o : uop1 U) : Prop := match o with AOp o => op_type o = None | _ => False end.
  Definition same_trace s s' : Prop := k_trace s' = k_trace s.
  Lemma same_trace_op o : publishes_nothing o -> keeps same_trace (api1 E o).
  Proof.
    assert (Rr : forall s, same_trace s s) by reflexivity.
    assert (Rt : forall s1 s2 s3, same_trace s1 s2 -> same_trace s2 s3 -> same_trace s1 s3) by (unfold same_trace; congruence).
    assert (Hw : forall A (f : comms -> res (comms * A)), keeps same_trace (with_comms f)).
    { intros A f s. unfold with_comms. rewrite run_bind, run_kdo. cbn [kstep fst snd]. rewrite run_bind, run_res. destruct (f (k_comms s)); reflexivity. }
    assert (Hl : forall A (f : comms -> res A), keeps same_trace (look_comms f)).
    { intros A f s. unfold look_comms. rewrite run_bind, run_kdo. cbn [kstep fst snd]. rewrite run_res. reflexivity. }
    assert (Hh : forall A (f : history -> res A), keeps same_trace (h <-- kdo KHistory ;; of_res (f h))).
    { intros A f s. rewrite run_bind, run_kdo. cbn [kstep fst snd]. rewrite run_res. reflexivity. }
    assert (Hg : keeps same_trace (new_guid E)) by (intros s; reflexivity).
    destruct o as [o| |]; cbn [publishes_nothing]; [|contradiction|contradiction].
    destruct o; cbn [op_type api1 api0]; intros Ho; try discriminate;
      first [ apply Hw | apply Hl | apply Hh | apply Hg | intros s; reflexivity | apply keeps_bind; auto ].
  Qed.
  Lemma started_first u q s r : always publishes_nothing (e_configure E) -> run (kernel_start E) (kinit u q) = (s, r) ->
    (exists e, k_trace s = [e] /\ start_event e /\ r = Ok tt) \/ (k_trace s = [] /\ is_ok r = false /\ r = snd (run (embed E (e_configure E)) (kinit u q))).
  Proof.
    intros Hc. unfold kernel_start. rewrite run_bind.
    assert (Hf : same_trace (kinit u q) (fst (run (embed E (e_configure E)) (kinit u q)))).
    { refine (keeps_embed same_trace _ _ E publishes_nothing _ same_trace_op Hc (kinit u q)); unfold same_trace; congruence. }
    destruct (run (embed E (e_configure E)) (kinit u q)) as [s1 [[]|e|w]]; cbn [fst snd] in *; unfold same_trace in Hf; cbn [kinit k_trace] in Hf.
    - rewrite run_bind. destruct (build_start s1) as (m & w & -> & Hst & _). rewrite run_emit. cbn [fst snd]. intros [= <- <-].
      left. eexists. cbn. rewrite Hf. cbn. auto.
    - intros [= <- <-]. auto.
    - intros [= <- <-]. auto.
  Qed.
End Session.
