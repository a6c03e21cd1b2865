(** The iopub socket as a subscriber sees it: proofs. *)
From Verif Require Import Base BaseFacts Json JsonText Utf8 Utf8Proofs JsonTextProofs JsonParseProofs Auth Message MessageProofs WireSpec WireLemmas History HistoryProofs Comm Tree Kernel KernelSpec KernelLemmas
  Server ServerSpec ServerProofs SequentialSpec Sequential SequentialProofs AnsweredSpec Answered ClientSpec Client HeardSpec.

(** What was published. *)
Definition pubs (evs : list event) : list frames := flat_map (fun e => match e with EPublish _ _ w => [w] | _ => [] end) evs.
Lemma pubs_app a b : pubs (a ++ b) = (pubs a ++ pubs b)%list.
Proof. apply flat_map_app. Qed.
Lemma pubs_concat bs : pubs (List.concat bs) = List.concat (List.map pubs bs).
Proof. induction bs as [|b bs IH]; auto. cbn [List.concat List.map]. now rewrite pubs_app, IH. Qed.
Lemma pubs_prefix a b : prefix a b -> prefix (pubs a) (pubs b).
Proof. intros [r ->]. rewrite pubs_app. eexists. reflexivity. Qed.
Lemma published_pubs ls : published ls = pubs (happened ls).
Proof.
  unfold published, happened, pubs. induction ls as [|l ls IH]; auto. cbn [flat_map]. rewrite flat_map_app, IH. f_equal. destruct l; auto. cbn. now rewrite app_nil_r.
Qed.

Section Heard.
  Context {U : Type} (E : env U) (He : e_eh E = EStrict).
  Lemma pub_shape m w : pub_serialize (e_crypto E) (e_auth E) (e_eh E) m = Ok w ->
    exists th tp tm tc, dump EStrict (m_header (m_pbase m)) = Ok th /\ dump EStrict (m_parent_header (m_pbase m)) = Ok tp /\
      dump EStrict (m_metadata (m_pbase m)) = Ok tm /\ dump EStrict (m_content (m_pbase m)) = Ok tc /\
      w = (m_topic m :: DELIMITER :: sign (e_crypto E) (e_auth E) th tp tm tc :: th :: tp :: tm :: tc :: m_buffers (m_pbase m))%list.
  Proof.
    rewrite He. unfold pub_serialize, base_serialize.
    destruct (dump _ (m_header (m_pbase m))) as [t1| |] eqn:E1; try discriminate.
    destruct (dump _ (m_parent_header (m_pbase m))) as [t2| |] eqn:E2; try discriminate.
    destruct (dump _ (m_metadata (m_pbase m))) as [t3| |] eqn:E3; try discriminate.
    destruct (dump _ (m_content (m_pbase m))) as [t4| |] eqn:E4; try discriminate.
    intros [= <-]. exists t1, t2, t3, t4. auto 10.
  Qed.
  Lemma ok_parses j t : json_ok j = true -> dump EStrict j = Ok t -> parse t = Ok j.
  Proof. intros H D. destruct (json_ok_dump EStrict _ H) as (t' & H1 & H2). congruence. Qed.
  Lemma pub_heads m w id ty : pub_serialize (e_crypto E) (e_auth E) (e_eh E) m = Ok w ->
    header_with (m_header (m_pbase m)) id ty (e_user_name E) (e_session_id E) -> heads w (m_header (m_pbase m)).
  Proof.
    intros H Hh. apply pub_shape in H as (th & tp & tm & tc & D1 & D2 & D3 & D4 & ->). eexists _, _, _, _. split; [reflexivity|].
    eapply header_parses; eauto.
  Qed.
  Lemma heads_same w h h' : heads w h -> heads w h' -> h = h'.
  Proof. intros (a & b & t & r & -> & P) (a' & b' & t' & r' & [= <- <- <- <-] & P'). congruence. Qed.
  Lemma pub_hears m w id ty : pub_serialize (e_crypto E) (e_auth E) (e_eh E) m = Ok w ->
    header_with (m_header (m_pbase m)) id ty (e_user_name E) (e_session_id E) -> json_ok (m_parent_header (m_pbase m)) = true ->
    exists tc, dump EStrict (m_content (m_pbase m)) = Ok tc /\ hears E w (m_header (m_pbase m)) (m_parent_header (m_pbase m)) tc.
  Proof.
    intros H Hh Hp. apply pub_shape in H as (th & tp & tm & tc & D1 & D2 & D3 & D4 & ->). exists tc. split; auto.
    eexists _, _, th, tp, tm, _. split; [reflexivity|]. split; [apply verify_sign|]. split; [eapply header_parses; eauto|now apply ok_parses].
  Qed.
  Lemma status_reads st c ph e : json_ok ph = true -> st = "busy" \/ st = "idle" -> status_event E st c ph e -> well_sent E e ->
    exists p w, e = EPublish c p w /\ status_heard E st ph w.
  Proof.
    intros Hp Hst (p & w & id & -> & Hh & _ & Hpar & _ & Hc & _) Hw. exists p, w. split; auto. cbn [well_sent] in Hw. rewrite <- Hpar in Hp.
    destruct (pub_hears _ _ _ _ Hw Hh Hp) as (tc & D & H). rewrite Hpar in H. exists (m_header (m_pbase p)), id, tc. split; auto. split; auto.
    rewrite Hc in D. eapply ok_parses; [|exact D]. destruct Hst as [-> | ->]; vm_compute; reflexivity.
  Qed.
  Lemma inner_said c m mid : json_ok (m_header (m_base m)) = true -> Forall (inner E c m) mid ->
    Forall no_status (pubs mid) /\ (c = SHELL -> Forall (fun f => belongs E (m_header (m_base m)) f \/ notice f) (pubs mid)).
  Proof.
    intros Hj F. induction F as [|e mid He' F [IH1 IH2]]; [split; constructor|].
    change (e :: mid) with ([e] ++ mid)%list. rewrite pubs_app. destruct He' as (Hw & Hns & _ & Hp).
    destruct e as [c' p w| | | | | | | |]; try (cbn [pubs flat_map app]; auto; fail). cbn [pubs flat_map app]. destruct Hp as (Hp & id & ty & Hh & Hc'). cbn [well_sent] in Hw.
    pose proof (pub_heads _ _ _ _ Hw Hh) as Hd. split.
    - constructor; auto. intros h Hh' X. rewrite (heads_same _ _ _ Hh' Hd) in X. apply Hns. exists c', p, w. split; auto. unfold pub_type, sfield. now rewrite X.
    - intros Hc. constructor; auto. destruct Hc' as [-> |Ht].
      + left. destruct (pub_hears _ _ _ _ Hw Hh) as (tc & _ & X); [now rewrite Hp by auto|].
        exists (m_header (m_pbase p)), id, ty, tc. rewrite Hp in X by auto. auto.
      + right. exists (m_header (m_pbase p)), ty. split; auto. split; [destruct Hh as (d & mm & _ & _ & _ & X & _); exact X|]. cbn in Ht. intuition.
  Qed.
  Lemma pubs_none evs : Forall (fun e => exists c r f, e = ESend c r f) evs -> pubs evs = [].
  Proof. induction 1 as [|e evs (c & r & f & ->) F IH]; auto. Qed.
  Lemma opening_said w c m ty l evs : accepted E w m -> opening E c m ty l evs -> said E c (m_header (m_base m)) (pubs evs) false.
  Proof.
    intros Ha (busy & mid & rep & ab & ws & lo & hi & -> & B & Wb & F & R & _ & A & _). destruct (accepted_header E _ _ Ha) as [Hj _].
    destruct (status_reads "busy" c _ _ Hj (or_introl eq_refl) B) as (p & fb & -> & Hb); auto.
    assert (X : pubs (rep ++ ab) = []).
    { apply pubs_none, Forall_app. split; [eapply Forall_impl; [|exact R]; intros e (_ & r & f & i & t & -> & _); eauto|].
      eapply Forall_impl; [|exact (aborts_sends E lo ws ab hi A)]. intros e (r & f & ->). eauto. }
    change (EPublish c p fb :: mid ++ rep ++ ab)%list with ([EPublish c p fb] ++ (mid ++ (rep ++ ab)))%list. rewrite pubs_app, (pubs_app mid), X, app_nil_r. cbn [pubs flat_map app].
    destruct (inner_said c m mid Hj F). now constructor.
  Qed.
  Lemma block_said c w l evs : block E (c, w, l) evs true ->
    (rejected E w /\ evs = []) \/ exists m, accepted E w m /\ said E c (m_header (m_base m)) (pubs evs) true.
  Proof.
    intros B. inversion B as [? ? Hr| | |? ? ? m ty evs' idle Ha Hty O Hi Wi|]; subst; [auto|]. right. exists m. split; auto.
    rewrite pubs_app. destruct (accepted_header E _ _ Ha) as [Hj _].
    destruct (status_reads "idle" c _ _ Hj (or_intror eq_refl) Hi) as (p & f & -> & H); auto.
    apply said_done; auto. eapply opening_said; eauto.
  Qed.
  (** An initial part of the block of a message. *)
  Lemma said_prefix c ph b ok x : said E c ph b ok -> prefix x b -> x = [] \/ exists ok', said E c ph x ok'.
  Proof.
    intros S [r Hr]. induction S as [busy mid B N O|b idle S IH I] in x, r, Hr |- *.
    - destruct x as [|y x]; auto. injection Hr as -> ->. right. exists false. apply Forall_app in N as [N _]. constructor; auto.
      intros Hc. specialize (O Hc). now apply Forall_app in O as [O _].
    - destruct r as [|z r] using rev_ind.
      + rewrite app_nil_r in Hr. subst x. right. exists true. now constructor.
      + rewrite app_assoc in Hr. apply app_inj_tail in Hr as [Hr ->]. eauto.
  Qed.
  Lemma untyped_said c w m busy : accepted E w m -> status_event E "busy" c (m_header (m_base m)) busy -> well_sent E busy ->
    said E c (m_header (m_base m)) (pubs [busy]) false.
  Proof.
    intros Ha B W. destruct (accepted_header E _ _ Ha) as [Hj _].
    destruct (status_reads "busy" c _ _ Hj (or_introl eq_refl) B) as (p & fb & -> & Hb); auto. cbn. constructor; auto.
  Qed.
  Lemma any_block_said c w l evs ok : block E (c, w, l) evs ok ->
    pubs evs = [] \/ exists m ok', accepted E w m /\ said E c (m_header (m_base m)) (pubs evs) ok'.
  Proof.
    intros B. destruct ok; [destruct (block_said _ _ _ _ B) as [[_ ->]|(m & A & S)]; eauto|].
    inversion B as [|? ? Hf|? ? m busy Ha Hn Hb Wb| |? ? ? m ty evs' Ha Hty O]; subst; auto; right; exists m, false; (split; [assumption|]).
    - eapply untyped_said; eauto.
    - eapply opening_said; eauto.
  Qed.
  Definition origin (e : episode) : channel * frames := let '(c, w, _) := e in (c, w).
  Lemma episodes_handed ls es : episodes ls es -> handed ls = List.map origin es.
  Proof.
    unfold handed. induction 1 as [|ls es c w H IH|ls es c w l x H IH|ls es l H IH N1 N2]; auto; rewrite flat_map_app, IH; cbn [flat_map app].
    - now rewrite map_app.
    - rewrite app_nil_r, !map_app. reflexivity.
    - destruct l; try apply app_nil_r. now destruct (N1 c w).
  Qed.
  Lemma blocks_said es bs : Forall2 (fun e b => block E e b true) es bs ->
    exists ms ss, understood E (List.map origin es) ms /\ Forall2 (fun x s => said E (fst x) (m_header (m_base (snd x))) s true) ms ss /\ pubs (List.concat bs) = List.concat ss.
  Proof.
    induction 1 as [|[[c w] l] b es bs B F (ms & ss & Un & S & P)]; [exists [], []; repeat split; constructor|].
    cbn [List.concat List.map origin]. rewrite pubs_app, P. destruct (block_said _ _ _ _ B) as [[Hr ->]|(m & Ha & Sd)].
    - exists ms, ss. split; [now constructor|]. auto.
    - exists ((c, m) :: ms), (pubs b :: ss). split; [now constructor|]. split; [now constructor|reflexivity].
  Qed.
  Lemma stream_said es p evs : stream E es p evs ->
    exists hs rest ms ss last, List.map origin es = (hs ++ rest)%list /\ understood E hs ms /\
      Forall2 (fun x s => said E (fst x) (m_header (m_base (snd x))) s true) ms ss /\ pubs evs = (List.concat ss ++ last)%list /\
      (p = Between -> rest = []) /\
      ((last = [] /\ List.length rest <= 1) \/ exists c w m ok, rest = [(c, w)] /\ accepted E w m /\ said E c (m_header (m_base m)) last ok).
  Proof.
    assert (K : forall es' e bs b ok last evs, es = (es' ++ [e])%list -> evs = (List.concat bs ++ last)%list -> Forall2 (fun e b => block E e b true) es' bs -> block E e b ok -> prefix last b ->
      exists hs rest ms ss last, List.map origin es = (hs ++ rest)%list /\ understood E hs ms /\
      Forall2 (fun x s => said E (fst x) (m_header (m_base (snd x))) s true) ms ss /\ pubs evs = (List.concat ss ++ last)%list /\
      ((last = [] /\ List.length rest <= 1) \/ exists c w m ok, rest = [(c, w)] /\ accepted E w m /\ said E c (m_header (m_base m)) last ok)).
    { intros es' [[c w] l] bs b ok last evs' -> -> F B Pr. destruct (blocks_said _ _ F) as (ms & ss & Un & S & P). rewrite map_app. cbn [List.map origin].
      exists (List.map origin es'), [(c, w)], ms, ss, (pubs last). rewrite pubs_app, P. repeat (split; [solve [auto]|]).
      apply pubs_prefix in Pr. destruct (any_block_said _ _ _ _ _ B) as [Hn|(m & ok' & Ha & Sd)].
      - left. split; [|cbn; lia]. destruct Pr as [r Hr]. rewrite Hn in Hr. now destruct (pubs last).
      - destruct (said_prefix _ _ _ _ _ Sd Pr) as [Hn|[ok2 S2]]; [left; split; [exact Hn|cbn; lia]|right]. exists c, w, m, ok2. auto. }
    destruct p; cbn [stream].
    - intros (bs & -> & F). destruct (blocks_said _ _ F) as (ms & ss & Un & S & P). exists (List.map origin es), [], ms, ss, []. rewrite !app_nil_r.
      repeat (split; [solve [auto]|]). left. cbn. auto.
    - intros (es' & e & bs & b & ok & last & He1 & He2 & F & B & Pr). destruct (K _ _ _ _ _ _ _ He1 He2 F B Pr) as (hs & rest & ms & ss & la & A1 & A2 & A3 & A4 & A5).
      exists hs, rest, ms, ss, la. repeat (split; [solve [auto]|]). split; [discriminate|auto].
    - intros (es' & e & bs & b & He1 & He2 & F & B). destruct (K _ _ _ _ _ _ _ He1 He2 F B) as (hs & rest & ms & ss & la & A1 & A2 & A3 & A4 & A5); [exists []; now rewrite app_nil_r|].
      exists hs, rest, ms, ss, la. repeat (split; [solve [auto]|]). split; [discriminate|auto].
  Qed.
  Lemma understood_in ws ms c w m : understood E ws ms -> In (c, w) ws -> accepted E w m -> In (c, m) ms.
  Proof.
    induction 1 as [|c' w' ws ms Hr Un IH|c' w' m' ws ms Ha Un IH]; intros Hi Hm; [easy| |]; destruct Hi as [[= -> ->]|Hi]; cbn; auto.
    - exfalso. destruct Hr as [e Hr]. unfold accepted in Hm. congruence.
    - left. unfold accepted in *. congruence.
  Qed.
  Lemma in_concat {A} (b : list A) bs : In b bs -> contains b (List.concat bs).
  Proof. intros H. apply in_split in H as (x & y & ->). exists (List.concat x), (List.concat y). now rewrite concat_app. Qed.
End Heard.
Lemma forall2_in {A B} (R : A -> B -> Prop) l l' x : Forall2 R l l' -> In x l -> exists y, In y l' /\ R x y.
Proof.
  induction 1 as [|a b l l' H F IH]; [easy|]. intros [<-|Hx]; [exists b; cbn; auto|]. destruct (IH Hx) as (y & Hy & Hr). exists y. cbn. auto.
Qed.
