(** The default server: the events of a run, message by message. *)
From Verif Require Import Base BaseFacts Json JsonText Utf8 Utf8Proofs JsonTextProofs Auth Message MessageProofs WireSpec History HistoryProofs Comm Tree Kernel KernelSpec KernelProofs KernelRun KernelHandlers KernelExec KernelDispatch KernelLemmas KernelSession
  Server ServerSpec ServerProofs SequentialSpec Sequential.

(** ** The run as a sequence *)
Section Sequence.
  Context {U : Type} (E : env U) (Hs : e_split E = false).
  Notation listener := (fun c w => dispatch E w c).
  Lemma epath_extends {A} (p : kprog U A) : forall s l p' s', epath p s l p' s' -> extends s s'.
  Proof.
    induction p as [a|e|w|o f IH]; cbn [epath]; intros s l p' s' [(_ & -> & _)|H]; try apply extends_refl; try contradiction.
    destruct H as (x & t & s1 & l1 & He & _ & H). eapply extends_trans; [|eapply IH; exact H].
    destruct o; cbn [estep] in He; try contradiction; try (destruct He as [-> _]; first [apply extends_refl|apply step_extends]).
  Qed.
  Lemma sequence k start ls s : drun listener (d_init k start) ls s -> exists es, episodes ls es /\
    k_trace (m_k (d_mem s)) = (k_trace k ++ happened ls)%list /\
    match place_of (d_pc s) with
    | Between => served E es (bare k) (bare (m_k (d_mem s)))
    | Handling => exists es' c w l k0 k1 r, es = (es' ++ [(c, w, l)])%list /\ served E es' (bare k) k0 /\
        run (dispatch E w c) (set_shell (List.map Some l) k0) = (k1, r) /\ k_shell k1 = [] /\
        prefix (k_trace k0) (k_trace (m_k (d_mem s))) /\ prefix (k_trace (m_k (d_mem s))) (k_trace k1)
    | Failed => exists es' c w l k0 r, es = (es' ++ [(c, w, l)])%list /\ served E es' (bare k) k0 /\
        run (dispatch E w c) (set_shell (List.map Some l) k0) = (bare (m_k (d_mem s)), r) /\ r <> Ok tt
    end.
  Proof.
    intros H. destruct (machine_inv E Hs k start ls s H) as (es & He & Hat & Ht). exists es. split; auto. split; auto.
    assert (R : forall p, running E es k p (m_k (d_mem s)) -> exists es' c w l k0 k1 r, es = (es' ++ [(c, w, l)])%list /\ served E es' (bare k) k0 /\
        run (dispatch E w c) (set_shell (List.map Some l) k0) = (k1, r) /\ k_shell k1 = [] /\
        prefix (k_trace k0) (k_trace (m_k (d_mem s))) /\ prefix (k_trace (m_k (d_mem s))) (k_trace k1)).
    { intros p (es' & c & w & l & k1 & -> & A & B & C). pose proof (epath_extends _ _ _ _ _ C) as C0. apply (seq_dispatch E Hs) in C as [[C1 C2] _].
      destruct (run (dispatch E w c) (set_shell (List.map Some l) k1)) as [k2 r] eqn:Er. exists es', c, w, l, k1, k2, r. auto 12. }
    destruct (d_pc s); cbn [at_pc place_of] in *; try (exact Hat); try (eapply R; exact Hat).
    destruct Hat as (p & r & (es' & c & w & l & k1 & -> & A & B & C) & Hl & Hr). apply (seq_dispatch E Hs) in C as [_ C].
    exists es', c, w, l, k1, r. auto 10.
  Qed.

  Lemma received_episodes ls es : episodes ls es ->
    received ls = flat_map (fun e : episode => let '(c, w, l) := e in (c, w) :: List.map (pair SHELL) l) es.
  Proof.
    assert (R : forall a b, received (a ++ b) = (received a ++ received b)%list) by (intros; unfold received; apply flat_map_app).
    induction 1 as [|ls es c w H IH|ls es c w l x H IH|ls es l H IH N1 N2]; rewrite ?R, ?IH, ?flat_map_app; auto.
    - cbn. rewrite map_app, !app_nil_r, <- app_assoc. reflexivity.
    - destruct l; cbn; rewrite ?app_nil_r; auto; [now destruct (N1 c w)|now destruct (N2 w)].
  Qed.
End Sequence.

(** ** The events *)
Section Stream.
  Context {U : Type} (E : env U) (raw : string -> Prop) (Hs : e_split E = false).
  Context (Hq : quiet E) (Hu : env_utf8 E) (HU : user_publishes E raw) (Hraw : ~ raw "status").
  Implicit Types (k : kstate U).
  Notation listener := (fun c w => dispatch E w c).

  Lemma map_some_inj {A} (a b : list A) : List.map Some a = List.map Some b -> a = b.
  Proof. revert b. induction a as [|x a IH]; intros [|y b] H; try discriminate; auto. injection H as -> H. f_equal. auto. Qed.
  Lemma map_some_none {A} (l a : list A) q : List.map Some l = (List.map Some a ++ None :: q)%list -> False.
  Proof. revert a. induction l as [|x l IH]; intros [|y a] H; try discriminate. injection H as _ H. eauto. Qed.
  Lemma taken_all l ws : taken (List.map Some l) ws [] -> l = ws \/ exists x, l = (ws ++ [x])%list.
  Proof.
    intros [[H ->]|[[H|[H _]]|[x H]]].
    - left. destruct l; [reflexivity|discriminate].
    - now apply map_some_none in H.
    - left. now apply map_some_inj.
    - right. exists x. apply map_some_inj. now rewrite map_app.
  Qed.
  Lemma numbered_complete lo evs hi : numbered E lo evs hi ->
    Forall (fun e => forall h, emitted e = Some h -> exists id ty, header_with h id ty (e_user_name E) (e_session_id E)) evs.
  Proof. induction 1; constructor; auto; intros h' Hh; [assert (h' = h) by congruence; subst; eauto|congruence]. Qed.
  Lemma pre_inner c m ids ph e : ids SHELL = (if chan_eqb c SHELL then m_ids m else ids SHELL) ->
    ph c = m_header (m_base m) -> (forall h, emitted e = Some h -> exists id ty, header_with h id ty (e_user_name E) (e_session_id E)) ->
    pre_event E raw (ids SHELL) ph e -> inner E c m e.
  Proof.
    intros Hi Hp Hc H. split; [apply H|]. split; [eapply pre_not_status; eauto|]. split; [eapply pre_not_send; eauto|].
    destruct H as [_ H]. destruct e; auto.
    - destruct H as (H & ty & Ht & _ & Hx). split; [intros ->; congruence|]. destruct (Hc _ eq_refl) as (id & ty' & Hh). exists id, ty'. split; auto.
      apply header_type in Hh. unfold pub_type in Ht. assert (ty' = ty) by congruence. subst. auto.
    - intros ->. cbn in Hi. destruct H as (A & B & _). split; congruence.
  Qed.

  Lemma episode_block w c l k0 k1 r : run (dispatch E w c) (set_shell (List.map Some l) k0) = (k1, r) -> k_shell k1 = [] ->
    exists evs ok, k_trace k1 = (k_trace k0 ++ evs)%list /\ block E (c, w, l) evs ok /\ (r = Ok tt <-> ok = true).
  Proof.
    intros Hrun Hsh. set (s := set_shell (List.map Some l) k0) in *.
    assert (Nil : k1 = s -> l = []) by (intros ->; cbn in Hsh; now destruct l).
    destruct (deserialize_cases E w) as [[m Ha]|[[e Hr]|Hub]].
    - destruct (value_string_cases "msg_type" "" (m_header (m_base m))) as [[ty Hty]|[e He]].
      + apply typed_value in Hty.
        destruct (dispatch_dispatched E raw Hq Hu HU w c m ty s k1 r Ha Hty Hrun) as (busy & mid & rep & ab & ws & tail & T & B & Wb & F & R & L & (lo & hi & AB) & W & TK & En & N & _).
        rewrite Hsh in TK. apply taken_all in TK.
        assert (O : opening E c m ty l (busy :: mid ++ rep ++ ab)).
        { exists busy, mid, rep, ab, ws, lo, hi. repeat (split; [solve [auto]|]). split; [|split; auto].
          assert (C : Forall (fun e => forall h, emitted e = Some h -> exists id ty, header_with h id ty (e_user_name E) (e_session_id E)) mid).
          { apply numbered_complete in N. inversion N as [|? ? _ N']. now apply Forall_app in N'. }
          apply Forall_forall. intros e He. rewrite Forall_forall in F, C. specialize (F e He). specialize (C e He). revert C F. apply (pre_inner c m (upd_chan c (m_ids m) (k_pid s)) (upd_chan c (m_header (m_base m)) (k_phdr s)) e).
          - unfold upd_chan. destruct c; reflexivity.
          - apply upd_same. }
        destruct En as [(-> & idle & -> & Si & Wi)|[-> Hr]].
        * exists ((busy :: mid ++ rep ++ ab) ++ [idle])%list, true. split; [rewrite T; cbn [app]; now rewrite <- !app_assoc|]. split; [|tauto]. eapply bk_done; eauto.
        * exists (busy :: mid ++ rep ++ ab)%list, false. rewrite app_nil_r in T. split; [exact T|]. split; [eapply bk_failed; eauto|].
          split; [|discriminate]. intros ->. destruct Hr as [[tag H]|H]; discriminate.
      + assert (Hnt : forall ty, ~ typed (m_header (m_base m)) ty) by (intros ty Hty; apply typed_value in Hty; congruence).
        destruct (run_dispatch_untyped E w c m s Hq Hu Ha Hnt) as (fb & what & Hfb & HD).
        rewrite Hrun in HD. injection HD as -> ->. eexists [_], false. split; [reflexivity|]. cbn in Hsh. replace l with (@nil frames) by now destruct l.
        split; [|split; discriminate]. eapply bk_untyped; eauto.
        pose proof (status_event_ok E "busy" c (parented (m_ids m) (m_header (m_base m)) c s) fb) as X.
        cbn [parented k_phdr set_phdr] in X. rewrite upd_same in X. exact X.
    - pose proof (run_dispatch_rejected E w c s (ex_intro _ _ Hr)) as X. rewrite Hrun in X. injection X as -> ->. rewrite (Nil eq_refl) in *.
      exists [], true. split; [now rewrite app_nil_r|]. split; [|tauto]. constructor. now exists e.
    - unfold dispatch in Hrun. rewrite run_bind, run_catch, run_bind, run_res in Hrun.
      assert (D : fatal E w) by (unfold fatal; destruct (deserialize (e_crypto E) (e_auth E) w); auto; discriminate).
      destruct (deserialize (e_crypto E) (e_auth E) w); try discriminate. injection Hrun as <- <-. rewrite (Nil eq_refl) in *.
      exists [], false. split; [now rewrite app_nil_r|]. split; [|split; discriminate]. now constructor.
  Qed.

  Lemma served_blocks es k k' : served E es k k' -> exists bs, k_trace k' = (k_trace k ++ List.concat bs)%list /\ Forall2 (fun e b => block E e b true) es bs.
  Proof.
    induction 1 as [k|es c w l k k0 k1 H (bs & T & F) Hrun Hsh].
    - exists []. split; [now rewrite app_nil_r|constructor].
    - destruct (episode_block _ _ _ _ _ _ Hrun Hsh) as (evs & ok & T1 & B & Hok). assert (ok = true) as -> by tauto.
      exists (bs ++ [evs])%list. rewrite T1, T, concat_app. cbn. rewrite app_nil_r, app_assoc. split; auto. apply Forall2_app; auto.
  Qed.
  Lemma server_stream k start ls s : drun listener (d_init k start) ls s ->
    exists es, episodes ls es /\ stream E es (place_of (d_pc s)) (happened ls).
  Proof.
    intros H. destruct (sequence E Hs k start ls s H) as (es & He & Ht & Hp). exists es. split; auto. destruct (place_of (d_pc s)).
    - apply served_blocks in Hp as (bs & T & F). exists bs. split; auto. cbn in T. rewrite Ht in T. now apply app_inv_head in T.
    - destruct Hp as (es' & c & w & l & k0 & k1 & r & -> & S & R & Sh & [last P0] & [x P]). apply served_blocks in S as (bs & T & F).
      destruct (episode_block _ _ _ _ _ _ R Sh) as (evs & ok & T1 & B & Hok). cbn in T.
      exists es', (c, w, l), bs, evs, ok, last. split; auto. split; [|split; auto; split; auto].
      + rewrite Ht, T, <- app_assoc in P0. now apply app_inv_head in P0.
      + exists x. rewrite P, P0, <- app_assoc in T1. now apply app_inv_head in T1.
    - destruct Hp as (es' & c & w & l & k0 & r & -> & S & R & Hr). apply served_blocks in S as (bs & T & F).
      destruct (episode_block _ _ _ _ _ _ R eq_refl) as (evs & ok & T1 & B & Hok). cbn in T, T1.
      assert (ok = false) as -> by (destruct ok; [tauto|reflexivity]). exists es', (c, w, l), bs, evs. repeat split; auto.
      rewrite Ht, T, <- app_assoc in T1. now apply app_inv_head in T1.
  Qed.

  (** ** Replies *)
  Lemma sub_app {A} (a b c d : list A) : sub a b -> sub c d -> sub (a ++ c) (b ++ d).
  Proof. induction 1; cbn; intros; auto using sub_skip, sub_take. Qed.
  Lemma sub_empty {A} (b : list A) : sub [] b.
  Proof. induction b; auto using sub_nil, sub_skip. Qed.
  Lemma sub_cut {A} (b a a' : list A) : sub (a ++ a') b -> sub a b.
  Proof.
    remember (a ++ a')%list as t eqn:Et. intros H. revert a Et. induction H as [|t b x H IH|t b x H IH]; intros [|y a] Et; try apply sub_empty; try discriminate.
    - apply sub_skip. auto.
    - injection Et as <- Et. apply sub_take. auto.
  Qed.
  Lemma sends_app a b : sends (a ++ b) = (sends a ++ sends b)%list.
  Proof. apply filter_app. Qed.
  Lemma sends_none l : Forall (fun e => ~ is_send e) l -> sends l = [].
  Proof. induction 1 as [|e l H _ IH]; auto. cbn. destruct e; auto. destruct H. eexists _, _, _. reflexivity. Qed.
  Definition from (e : episode) : list (channel * frames) := let '(c, w, l) := e in (c, w) :: List.map (pair SHELL) l.
  Lemma aborts_answers lo ws ab hi : aborts E lo ws ab hi -> exists xs, sub xs (List.map (pair SHELL) ws) /\ Forall2 (answers E) xs (sends ab).
  Proof.
    induction 1 as [lo hi|lo w ws evs hi Hr H (xs & A & B)|lo n w ws evs hi m ty rty r f Ha Hty Hab Hn Hh Hi Hp Hm Hc Hb Hf H (xs & A & B)].
    - exists []. split; constructor.
    - exists xs. split; auto. now apply sub_skip.
    - exists ((SHELL, w) :: xs). split; [now apply sub_take|]. cbn [sends filter]. constructor; auto.
      exists m, ty, r, f, (e_guid E n), rty. cbn [fst snd]. auto 12.
  Qed.
  Lemma opening_answers c m ty w l evs : accepted E w m -> typed (m_header (m_base m)) ty -> opening E c m ty l evs ->
    exists xs, sub xs (from (c, w, l)) /\ Forall2 (answers E) xs (sends evs).
  Proof.
    intros Ha Hty (busy & mid & rep & ab & ws & lo & hi & -> & B & Wb & F & R & L & AB & W & Hl).
    apply aborts_answers in AB as (xs & X1 & X2).
    assert (X3 : sub xs (List.map (pair SHELL) l)).
    { destruct Hl as [->|[x ->]]; auto. rewrite map_app, <- (app_nil_r xs). apply sub_app; auto. apply sub_empty. }
    change (busy :: mid ++ rep ++ ab)%list with ([busy] ++ mid ++ rep ++ ab)%list. rewrite !sends_app, (sends_none [busy]), (sends_none mid).
    2:{ eapply Forall_impl; [|exact F]. intros e H. apply H. }
    2:{ constructor; [eapply status_not_send; eauto|constructor]. }
    cbn [app]. destruct rep as [|e [|e' rep]]; [| |cbn in L; lia].
    - exists xs. split; auto. now apply sub_skip.
    - apply Forall_inv in R as [Wr (r & f & id & rty & -> & Hn & Hi & Hp & Hh & Hb)].
      exists ((c, w) :: xs). split; [now apply sub_take|]. cbn [sends filter app]. constructor; auto.
      exists m, ty, r, f, id, rty. cbn [fst snd]. auto 12.
  Qed.
  Lemma block_answers e b ok : block E e b ok -> exists xs, sub xs (from e) /\ Forall2 (answers E) xs (sends b).
  Proof.
    destruct 1.
    - exists []. split; [apply sub_empty|constructor].
    - exists []. split; [apply sub_empty|constructor].
    - exists []. split; [apply sub_empty|]. rewrite sends_none; [constructor|]. constructor; [eapply status_not_send; eauto|constructor].
    - rewrite sends_app, (sends_none [idle]), app_nil_r; [eapply opening_answers; eauto|]. constructor; [eapply status_not_send; eauto|constructor].
    - eapply opening_answers; eauto.
  Qed.
  Lemma blocks_answers es bs : Forall2 (fun e b => block E e b true) es bs -> exists xs, sub xs (flat_map from es) /\ Forall2 (answers E) xs (sends (List.concat bs)).
  Proof.
    induction 1 as [|e b es bs H _ (xs & A & B)].
    - exists []. split; constructor.
    - apply block_answers in H as (ys & C & D). exists (ys ++ xs)%list. cbn [flat_map List.concat]. rewrite sends_app. split; [now apply sub_app|now apply Forall2_app].
  Qed.
  Lemma server_replies k start ls s : drun listener (d_init k start) ls s ->
    exists xs, sub xs (received ls) /\ Forall2 (answers E) xs (sends (happened ls)).
  Proof.
    intros H. destruct (server_stream k start ls s H) as (es & He & St). rewrite (received_episodes _ _ He). fold from.
    destruct (place_of (d_pc s)).
    - destruct St as (bs & -> & F). now apply blocks_answers.
    - destruct St as (es' & e & bs & b & ok & last & -> & -> & F & B & [x ->]). apply blocks_answers in F as (xs & A1 & A2).
      apply block_answers in B as (ys & B1 & B2). rewrite sends_app in B2. apply Forall2_app_inv_r in B2 as (y1 & y2 & B2 & _ & ->).
      exists (xs ++ y1)%list. rewrite flat_map_app, sends_app. cbn [flat_map]. rewrite app_nil_r. split; [apply sub_app; auto|now apply Forall2_app].
      eapply sub_cut; eauto.
    - destruct St as (es' & e & bs & b & -> & -> & F & B). apply blocks_answers in F as (xs & A1 & A2).
      apply block_answers in B as (ys & B1 & B2).
      exists (xs ++ ys)%list. rewrite flat_map_app, sends_app. cbn [flat_map]. rewrite app_nil_r. split; [apply sub_app; auto|now apply Forall2_app].
  Qed.

  (** ** Identifiers *)
  Lemma served_extends es k k' : served E es k k' -> KernelSession.extends E k k'.
  Proof.
    induction 1 as [k|es c w l k k0 k1 H IH Hrun Hsh]; [apply KernelSession.extends_refl|].
    eapply KernelSession.extends_trans; [exact IH|]. pose proof (dispatch_extends E raw Hq Hu HU w c (set_shell (List.map Some l) k0)) as X.
    rewrite Hrun in X. exact X.
  Qed.
  (** The trace is an initial part of a trace obtained sequentially. *)
  Lemma server_extends k start ls s : drun listener (d_init k start) ls s -> exists k',
    KernelSession.extends E (bare k) k' /\ prefix (k_trace (m_k (d_mem s))) (k_trace k').
  Proof.
    intros H. destruct (sequence E Hs k start ls s H) as (es & He & Ht & Hp). destruct (place_of (d_pc s)).
    - exists (bare (m_k (d_mem s))). split; [eapply served_extends; eauto|]. exists []. now rewrite app_nil_r.
    - destruct Hp as (es' & c & w & l & k0 & k1 & r & -> & S & R & Sh & _ & P). exists k1. split; auto.
      eapply KernelSession.extends_trans; [eapply served_extends; eauto|]. pose proof (dispatch_extends E raw Hq Hu HU w c (set_shell (List.map Some l) k0)) as X.
      rewrite R in X. exact X.
    - destruct Hp as (es' & c & w & l & k0 & r & -> & S & R & Hr). exists (bare (m_k (d_mem s))). split; [|exists []; now rewrite app_nil_r].
      eapply KernelSession.extends_trans; [eapply served_extends; eauto|]. pose proof (dispatch_extends E raw Hq Hu HU w c (set_shell (List.map Some l) k0)) as X.
      rewrite R in X. exact X.
  Qed.
  Lemma numbered_cut lo a b hi : numbered E lo (a ++ b) hi -> numbered E lo a hi.
  Proof.
    revert lo. induction a as [|e a IH]; intros lo H; cbn in H; [constructor; eapply numbered_le; eauto|]. inversion H; subst.
    - eapply num_msg; eauto.
    - apply num_other; auto.
  Qed.
End Stream.
