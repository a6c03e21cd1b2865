(** The split servers: requests of the messenger and the shell thread's answers. *)
From Verif Require Import Base Json JsonText BaseFacts Auth Message History Comm Tree Kernel KernelSpec Server Split SplitSpec Threads SplitProofs.

(** A JSON text is not the stop command. *)
Lemma dump_not_stop h j t : dump h j = Ok t -> t <> "stop".
Proof.
  unfold dump. destruct (dump_opt h j) as [x|] eqn:H; [|discriminate]. intros [= <-] ->.
  destruct j as [|b|z|l|s|l|m]; cbn [dump_opt] in H.
  - discriminate.
  - destruct b; discriminate.
  - injection H as H. apply (f_equal Z_of_dec) in H. rewrite Z_of_dec_of_Z in H. vm_compute in H. discriminate.
  - injection H as H. destruct (float_lit l) eqn:F; [|discriminate]. subst l. vm_compute in F. discriminate.
  - unfold dump_str, quoted in H. destruct (dump_esc h 0 "" s); discriminate.
  - destruct ((fix go (l : list json) : option string := _) l); discriminate.
  - destruct ((fix go (m : list (string * json)) : option string := _) m); discriminate.
Qed.

Section Calls.
  Context {U : Type} (v : variant) (E : env U).
  Let listener c w := dispatch E w c.
  Let internal := dispatch_internal E.

  Definition is_calling {A} (g : going U A) : bool := match g with Calling _ => true | Going _ => false end.
  Definition sh_calling (a : shpc U) : bool := match a with SRun g _ => is_calling g | SIntern g => is_calling g | _ => false end.
  Definition ct_calling (a : ctpc U) : bool := match a with CRun g => is_calling g | _ => false end.
  Definition calling_is (c : channel) (a : shpc U) (b : ctpc U) : Prop :=
    sh_calling a = chan_eqb c SHELL /\ ct_calling b = chan_eqb c CONTROL.
  Definition none_calling (a : shpc U) (b : ctpc U) : Prop := sh_calling a = false /\ ct_calling b = false.
  Definition sh_intern (a : shpc U) : bool := match a with SIntern _ => true | _ => false end.
  Definition sh_out (a : shpc U) : bool := match a with SOut | SEnd => true | _ => false end.
  Definition ct_past (a : ctpc U) : bool :=
    match a with CTest | CRecv | CRun _ | CStopShell | CWaitShell => false | _ => true end.
  Definition ct_wait (a : ctpc U) : bool := match a with CWaitShell => true | _ => false end.
  Definition proper (w : frames) : Prop := exists t r, w = t :: r /\ t <> "stop".

  Inductive phase (a : shpc U) (b : ctpc U) : slot -> list slabel -> Prop :=
  | ph_idle L : rounds L -> sh_intern a = false -> none_calling a b -> ct_wait b = false -> sh_out a = ct_past b ->
      phase a b SIdle L
  | ph_call L c w : rounds L -> sh_intern a = false -> calling_is c a b -> ct_past b = false -> ct_wait b = false -> sh_out a = false -> proper w ->
      phase a b (SAsked w) (L ++ [YCall c w])
  | ph_intern L w : rounds L -> sh_intern a = true -> calling_is CONTROL a b ->
      phase a b (SAsked w) (L ++ [YCall CONTROL w; YIntern w])
  | ph_end L w r : rounds L -> sh_intern a = false -> calling_is CONTROL a b -> sh_out a = false ->
      phase a b (SAnswered r) (L ++ [YCall CONTROL w; YIntern w; YInternEnd r])
  | ph_stop L : rounds L -> sh_intern a = false -> none_calling a b -> ct_wait b = true -> sh_out a = false ->
      phase a b (SAsked stop_frames) L
  | ph_stopped L w : rounds L -> sh_intern a = false -> none_calling a b -> ct_wait b = true -> sh_out a = true ->
      phase a b (SAnswered w) L.

  Lemma mop_call o (m m' : mem U) x : mop o m m' x -> m_call m' = m_call m.
  Proof.
    destruct o; cbn [mop]; try (intros [-> _]; reflexivity).
    - intros ->. destruct e; reflexivity.
    - intros (_ & -> & _). reflexivity.
    - intros ->. reflexivity.
    - destruct (m_shellq m); intros [-> _]; reflexivity.
    - intros [].
  Qed.
  Lemma sync_label c (o : kop U) x : is_sync (label_of c o x) = false.
  Proof. destruct o; try reflexivity. cbn. now destruct x. Qed.
  Lemma sync_snoc ls l : sync (ls ++ [l]) = (sync ls ++ if is_sync l then [l] else [])%list.
  Proof. unfold sync. rewrite filter_app. reflexivity. Qed.

  Lemma in_call_inv a b c L w0 s : phase a b s L -> calling_is c a b -> s = SAnswered w0 ->
    c = CONTROL /\ exists L' w, rounds L' /\ L = (L' ++ [YCall CONTROL w; YIntern w; YInternEnd w0])%list /\ sh_intern a = false /\ sh_out a = false.
  Proof.
    intros H [C1 C2] Hs. destruct H; try discriminate.
    - injection Hs as <-. destruct H1 as [C3 C4]. rewrite C3 in C1. rewrite C4 in C2. destruct c; [discriminate|]. split; auto. exists L, w. auto.
    - destruct H1 as [C3 C4]. rewrite C3 in C1. rewrite C4 in C2. destruct c; discriminate.
  Qed.
  Ltac fin := repeat match goal with
    | H : none_calling _ _ |- _ => destruct H
    | H : calling_is _ _ _ |- _ => destruct H
    end; cbn in *; try discriminate; try congruence.
  Lemma shell_phase a b m l a' m' L : phase a b (m_call m) L -> shell_step listener internal a m l a' m' ->
    (forall c w, l = YCall c w -> proper w) -> phase a' b (m_call m') (L ++ if is_sync l then [l] else []).
  Proof.
    intros HP HS HC. destruct HS.
    - cbn. rewrite app_nil_r. inversion HP; subst; try (constructor; auto; fail); fin.
    - cbn. rewrite app_nil_r. inversion HP; subst; try (constructor; auto; fail); fin.
    - cbn. rewrite app_nil_r. inversion HP; subst; try (constructor; auto; fail); fin.
    - inversion H; subst.
      + rewrite (mop_call _ _ _ _ H0), sync_label, app_nil_r. inversion HP; subst; try (constructor; auto; fail); fin.
      + rewrite H0 in HP. cbn [is_sync m_call set_call]. inversion HP; subst. fin.
        apply ph_call; auto; [split; cbn; auto|]. eapply HC; reflexivity.
      + rewrite H0 in HP. inversion HP; subst; fin.
    - cbn. rewrite app_nil_r. inversion HP; subst; destruct b0; try (constructor; auto; fail); fin.
    - rewrite H in HP. cbn [is_sync m_call set_call]. rewrite app_nil_r. inversion HP; subst; fin.
      + match goal with X : proper _ |- _ => destruct X as (t & r & [= <- <-] & Hn) end. now destruct Hn.
      + apply ph_stopped; auto. split; auto.
    - rewrite H in HP. cbn [is_sync m_call set_call]. rewrite H. inversion HP; subst; fin.
      destruct c; [discriminate|]. rewrite <- app_assoc. cbn. apply ph_intern; auto. split; auto.
    - inversion H; subst.
      + rewrite (mop_call _ _ _ _ H0), sync_label, app_nil_r. inversion HP; subst; try (constructor; auto; fail); fin.
      + rewrite H0 in HP. inversion HP; subst. fin.
      + rewrite H0 in HP. inversion HP; subst; fin.
    - cbn [is_sync m_call set_call]. inversion HP; subst; fin. rewrite <- app_assoc. cbn. apply ph_end; auto. split; auto.
  Qed.
  Lemma control_phase a b m l b' m' L : phase a b (m_call m) L -> control_step listener b m l b' m' ->
    (forall c w, l = YCall c w -> proper w) -> phase a b' (m_call m') (L ++ if is_sync l then [l] else []).
  Proof.
    intros HP HS HC. destruct HS.
    all: try (cbn; rewrite app_nil_r; inversion HP; subst; try (constructor; auto; fail); fin; fail).
    - inversion H; subst.
      + rewrite (mop_call _ _ _ _ H0), sync_label, app_nil_r. inversion HP; subst; try (constructor; auto; fail); fin.
      + rewrite H0 in HP. cbn [is_sync m_call set_call]. inversion HP; subst. fin.
        apply ph_call; auto; [split; cbn; auto|]. eapply HC; reflexivity.
      + rewrite H0 in HP. cbn [is_sync m_call set_call]. inversion HP; subst; fin.
        rewrite <- app_assoc. cbn. apply ph_idle; auto; [now constructor|split; auto].
  Qed.
  Definition yphase (ls : list slabel) (s : ysys U) : Prop := phase (y_sh s) (y_ct s) (m_call (y_mem s)) (sync ls).
  Lemma ystep_phase ls s l s' : yphase ls s -> ystep v listener internal s l s' ->
    (forall c w, l = YCall c w -> proper w) -> yphase (ls ++ [l]) s'.
  Proof.
    unfold yphase. rewrite sync_snoc. intros HP H HC. destruct H; cbn [y_sh y_ct y_mem] in *.
    - eapply shell_phase; eauto.
    - eapply control_phase; eauto.
    - cbn. rewrite app_nil_r. inversion HP; subst; try (constructor; auto; fail); fin.
    - cbn. rewrite app_nil_r. inversion HP; subst; try (constructor; auto; fail); fin.
    - cbn. rewrite app_nil_r. inversion HP; subst; try (constructor; auto; fail); fin.
    - cbn. rewrite app_nil_r. exact HP.
    - cbn. rewrite app_nil_r. exact HP.
    - cbn. rewrite app_nil_r. exact HP.
    - cbn. rewrite app_nil_r. exact HP.
    - cbn. rewrite app_nil_r. destruct ch; exact HP.
    - cbn. rewrite app_nil_r. exact HP.
    - cbn. rewrite app_nil_r. exact HP.
  Qed.
  Lemma yrun_phase k0 start ls s : yrun v listener internal (y_init k0 start) ls s -> yphase ls s.
  Proof.
    intros H. assert (HT : forall c w, In (YCall c w) ls -> proper w).
    { intros c w Hi. destruct (calls_texts v E k0 start ls s c w H Hi) as (j & t & Hd & ->). exists t, []. split; auto. eapply dump_not_stop; eauto. }
    remember (y_init k0 start) as s0 eqn:Hs0. induction H as [|s0 ls s1 l s2 H IH Hst]; [subst s|].
    - apply ph_idle; try reflexivity; [constructor|split; reflexivity].
    - eapply ystep_phase; [apply IH; auto|exact Hst|].
      + intros c w Hi. apply (HT c). apply in_or_app. now left.
      + intros c w ->. apply (HT c). apply in_or_app. right. now left.
  Qed.
  (** Requests and answers alternate. *)
  Lemma lock_step k0 start ls s : yrun v listener internal (y_init k0 start) ls s ->
    exists L R, sync ls = (L ++ R)%list /\ rounds L /\ in_round R.
  Proof.
    intros H. apply yrun_phase in H. unfold yphase in H. inversion H; subst; eexists _, _; (split; [|split; [eassumption|]]); try reflexivity.
    all: try constructor. all: now rewrite app_nil_r.
  Qed.
  (** The shell thread leaves its loop only for the stop command of the control thread. *)
  Lemma shell_leaves k0 start ls s : yrun v listener internal (y_init k0 start) ls s ->
    y_sh s = SOut \/ y_sh s = SEnd -> y_ct s = CWaitShell \/ ct_past (y_ct s) = true.
  Proof.
    intros H Ho. apply yrun_phase in H. unfold yphase in H.
    assert (HO : sh_out (y_sh s) = true) by (now destruct Ho as [->| ->]).
    inversion H; subst; try congruence.
    - right. congruence.
    - match goal with X : sh_intern _ = true |- _ => destruct (y_sh s); discriminate end.
    - left. destruct (y_ct s); try discriminate; auto.
  Qed.
End Calls.
