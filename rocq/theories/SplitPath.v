(** The threads of the split servers run the programs of their listeners. *)
From Verif Require Import Base BaseFacts Json JsonText Message Comm Tree Kernel KernelSpec Server Split SplitSpec SplitStop SplitPathSpec.

Section Path.
  Context {U : Type} (v : variant) (listener : channel -> frames -> kprog U unit) (internal : frames -> kprog U frames).
  Notation step := (ystep v listener internal).
  Implicit Types (s : ysys U).
  Lemma follows_trans c A (p q r : kprog U A) a b : follows c p a q -> follows c q b r -> follows c p (a ++ b) r.
  Proof. induction 1; intros H'; cbn [app]; auto; econstructor; eauto. Qed.
  Lemma own_app c a b : own_labels c (a ++ b) = (own_labels c a ++ own_labels c b)%list.
  Proof. apply filter_app. Qed.
  Definition gfollows c {A} (p : kprog U A) (b : list slabel) (g : going U A) : Prop :=
    match g with
    | Going q => follows c p b q
    | Calling k => exists b' w, b = (b' ++ [YCall c w])%list /\ follows c p b' (Do (KCall w) k)
    end.
  Lemma chan_refl c : chan_eqb c c = true. Proof. now destruct c. Qed.
  Lemma gstep_follows c A (p : kprog U A) b g m l g' m' : gstep c g m l g' m' -> gfollows c p b g -> gfollows c p (b ++ own_labels c [l]) g'.
  Proof.
    destruct 1; cbn [gfollows].
    - intros HF. eapply follows_trans; [exact HF|].
      destruct o; cbn [label_of]; unfold own_labels; cbn [filter own_label]; rewrite ?chan_refl.
      all: try (eapply fo_hidden; [exact I|apply fo_nil]; fail).
      + eapply fo_emit, fo_nil.
      + destruct x; cbn; rewrite ?chan_refl; [apply fo_took|apply fo_empty]; apply fo_nil.
      + destruct H.
    - intros HF. exists b, w. cbn. rewrite chan_refl. auto.
    - intros (b' & w' & -> & HF). cbn. rewrite chan_refl, <- app_assoc. eapply follows_trans; [exact HF|]. apply fo_call, fo_nil.
  Qed.
  Lemma gstep_starts c A (g : going U A) m l g' m' c' : gstep c g m l g' m' -> ~ starts c' l.
  Proof. destruct 1; cbn; auto. destruct o; cbn; auto. destruct x; auto. Qed.

  (** What thread [c] did last. *)
  Inductive since_hand c (ls : list slabel) (P : kprog U unit -> list slabel -> Prop) : Prop :=
  | sh_intro a w b : ls = (a ++ YHand c w :: b)%list -> in_same c b -> P (listener c w) (own_labels c b) -> since_hand c ls P.
  Inductive since_intern (ls : list slabel) (P : kprog U frames -> list slabel -> Prop) : Prop :=
  | si_intro a w b : ls = (a ++ YIntern w :: b)%list -> in_same SHELL b -> P (internal w) (own_labels SHELL b) -> since_intern ls P.
  Definition ended (c : channel) (p : kprog U unit) (b : list slabel) : Prop := follows c p b (Ret tt).
  Definition replied (p : kprog U frames) (b : list slabel) : Prop := exists b' r, b = (b' ++ [YInternEnd r])%list /\ follows SHELL p b' (Ret r).
  Definition resting (c : channel) (ls : list slabel) : Prop :=
    in_same c ls \/ since_hand c ls (ended c) \/ (c = SHELL /\ since_intern ls replied).
  Definition ctl_inv ls (b : ctpc U) : Prop :=
    match b with CRun g => since_hand CONTROL ls (fun p b => gfollows CONTROL p b g) | _ => resting CONTROL ls end.
  Definition shl_inv ls (a : shpc U) : Prop :=
    match a with
    | SRun g _ => since_hand SHELL ls (fun p b => gfollows SHELL p b g)
    | SIntern g => since_intern ls (fun p b => gfollows SHELL p b g)
    | _ => resting SHELL ls
    end.
  Lemma in_same_snoc c ls l : in_same c ls -> ~ starts c l -> in_same c (ls ++ [l]).
  Proof. intros H N. apply Forall_app. auto. Qed.
  Lemma hand_snoc c ls l (P Q : kprog U unit -> list slabel -> Prop) : ~ starts c l -> (forall p b, P p b -> Q p (b ++ own_labels c [l])) ->
    since_hand c ls P -> since_hand c (ls ++ [l]) Q.
  Proof. intros N H [a w b -> Hb HP]. exists a w (b ++ [l])%list; [now rewrite <- app_assoc|now apply in_same_snoc|]. rewrite own_app. auto. Qed.
  Lemma intern_snoc ls l (P Q : kprog U frames -> list slabel -> Prop) : ~ starts SHELL l -> (forall p b, P p b -> Q p (b ++ own_labels SHELL [l])) ->
    since_intern ls P -> since_intern (ls ++ [l]) Q.
  Proof. intros N H [a w b -> Hb HP]. exists a w (b ++ [l])%list; [now rewrite <- app_assoc|now apply in_same_snoc|]. rewrite own_app. auto. Qed.
  Lemma hand_other c ls l P : ~ starts c l -> own_labels c [l] = [] -> since_hand c ls P -> since_hand c (ls ++ [l]) P.
  Proof. intros N H. apply hand_snoc; auto. intros p b. now rewrite H, app_nil_r. Qed.
  Lemma intern_other ls l P : ~ starts SHELL l -> own_labels SHELL [l] = [] -> since_intern ls P -> since_intern (ls ++ [l]) P.
  Proof. intros N H. apply intern_snoc; auto. intros p b. now rewrite H, app_nil_r. Qed.
  Lemma resting_other c ls l : ~ starts c l -> own_labels c [l] = [] -> resting c ls -> resting c (ls ++ [l]).
  Proof.
    intros N H [A|[A|[-> A]]].
    - left. now apply in_same_snoc.
    - right. left. now apply hand_other.
    - right. right. split; auto. now apply intern_other.
  Qed.
  Definition other c (l : slabel) : Prop := ~ starts c l /\ own_labels c [l] = [].
  Lemma who_other c l : who l <> chan_tid c -> other c l.
  Proof.
    unfold other, own_labels. destruct l as [| | |c' ?|c' ?|c' ?|c' ?|c' ?| | |]; cbn; auto; destruct c; try destruct c'; cbn; intros H; try (now destruct H); split; auto; discriminate.
  Qed.
  Lemma ctl_other ls b l : other CONTROL l -> ctl_inv ls b -> ctl_inv (ls ++ [l]) b.
  Proof. intros [N H]. destruct b; cbn; try (apply resting_other; auto; fail). apply hand_other; auto. Qed.
  Lemma shl_other ls a l : other SHELL l -> shl_inv ls a -> shl_inv (ls ++ [l]) a.
  Proof. intros [N H]. destruct a; cbn; try (apply resting_other; auto; fail); [apply hand_other|apply intern_other]; auto. Qed.
  Lemma tau_other c t : other c (YTau t). Proof. split; auto. Qed.
  Lemma new_hand c ls w : since_hand c (ls ++ [YHand c w]) (fun p b => gfollows c p b (Going (listener c w))).
  Proof. exists ls w []; auto; [constructor|]. apply fo_nil. Qed.
  Lemma ret_unit (a : unit) : (Ret a : kprog U unit) = Ret tt. Proof. now destruct a. Qed.
  Lemma shell_inv_step ls a m l a' m' : shl_inv ls a -> shell_step listener internal a m l a' m' -> shl_inv (ls ++ [l]) a'.
  Proof.
    intros H HS. destruct HS; cbn [shl_inv] in *.
    - apply resting_other; auto.
    - apply resting_other; auto.
    - apply new_hand.
    - eapply hand_snoc; [eapply gstep_starts; eauto| |exact H]. intros p b0. eapply gstep_follows; eauto.
    - assert (R : resting SHELL (ls ++ [YTau TShell])).
      { right. left. eapply hand_other; auto. destruct H as [a0 w b0 -> Hb HP]. exists a0 w b0; auto. cbn in HP. rewrite ret_unit in HP. exact HP. }
      destruct b; exact R.
    - apply resting_other; auto.
    - exists ls (f :: w) []; auto; [constructor|]. apply fo_nil.
    - eapply intern_snoc; [eapply gstep_starts; eauto| |exact H]. intros p b0. eapply gstep_follows; eauto.
    - right. right. split; auto. eapply intern_snoc; [| |exact H]; [auto|]. intros p b0 HF. exists b0, w. auto.
  Qed.
  Lemma control_inv_step ls a m l a' m' : ctl_inv ls a -> control_step listener a m l a' m' -> ctl_inv (ls ++ [l]) a'.
  Proof.
    intros H HS. destruct HS; cbn [ctl_inv] in *; try (apply resting_other; auto; fail).
    - apply new_hand.
    - eapply hand_snoc; [eapply gstep_starts; eauto| |exact H]. intros p b0. eapply gstep_follows; eauto.
    - right. left. eapply hand_other; auto. destruct H as [a0 w b0 -> Hb HP]. exists a0 w b0; auto. cbn in HP. rewrite ret_unit in HP. exact HP.
  Qed.
  Lemma who_gstep c A (g : going U A) m l g' m' : gstep c g m l g' m' -> who l = chan_tid c.
  Proof. destruct 1; try reflexivity. destruct o; try reflexivity. destruct x; reflexivity. Qed.
  Lemma shell_who a m l a' m' : shell_step listener internal a m l a' m' -> who l = TShell.
  Proof. destruct 1; try reflexivity; eapply who_gstep in H; exact H. Qed.
  Lemma control_who a m l a' m' : control_step listener a m l a' m' -> who l = TControl.
  Proof. destruct 1; try reflexivity; eapply who_gstep in H; exact H. Qed.
  Definition pinv ls s : Prop := shl_inv ls (y_sh s) /\ ctl_inv ls (y_ct s).
  Lemma step_pinv ls s l s' : pinv ls s -> step s l s' -> pinv (ls ++ [l]) s'.
  Proof.
    intros [A B] H. unfold pinv. destruct H; cbn [y_sh y_ct] in *.
    - split; [eapply shell_inv_step; eauto|]. apply ctl_other; auto. apply who_other. rewrite (shell_who _ _ _ _ _ H). discriminate.
    - split; [|eapply control_inv_step; eauto]. apply shl_other; auto. apply who_other. rewrite (control_who _ _ _ _ _ H). discriminate.
    - split; [apply shl_other|]; auto using tau_other. apply resting_other; auto.
    - split; [apply shl_other|]; auto using tau_other. apply resting_other; auto.
    - split; [|apply ctl_other]; auto using tau_other. apply resting_other; auto.
    - split; [apply shl_other|apply ctl_other]; auto using tau_other.
    - split; [apply shl_other|apply ctl_other]; auto using tau_other.
    - split; [apply shl_other|apply ctl_other]; auto using tau_other.
    - split; [apply shl_other|apply ctl_other]; auto using tau_other.
    - split; [apply shl_other|apply ctl_other]; auto; split; auto.
    - split; [apply shl_other|apply ctl_other]; auto; split; auto.
    - split; [apply shl_other|apply ctl_other]; auto; split; auto.
  Qed.
  Lemma run_pinv k start ls s : yrun v listener internal (y_init k start) ls s -> pinv ls s.
  Proof.
    remember (y_init k start) as s0 eqn:Hs0. induction 1 as [|s0 ls s1 l s2 H IH Hst]; [subst s|eapply step_pinv; eauto].
    split; left; constructor.
  Qed.
  Lemma yrun_prefix s0 ls s l d : yrun v listener internal s0 (ls ++ l :: d) s -> exists s1 s2, yrun v listener internal s0 ls s1 /\ step s1 l s2.
  Proof.
    remember (ls ++ l :: d)%list as L eqn:HL. intros H. revert ls l d HL. induction H as [|s0 L s1 l' s2 H IH Hst]; intros ls l d HL; [destruct ls; discriminate|].
    destruct d as [|x d _] using rev_ind.
    - apply app_inj_tail in HL as [-> ->]. eauto.
    - change (ls ++ l :: d ++ [x])%list with (ls ++ (l :: d) ++ [x])%list in HL. rewrite app_assoc in HL. apply app_inj_tail in HL as [-> _]. eapply IH; eauto.
  Qed.
  (** The last start is unique. *)
  Lemma last_start c a x b a' x' b' : (a ++ x :: b = a' ++ x' :: b')%list -> starts c x -> starts c x' -> in_same c b -> in_same c b' -> a = a' /\ x = x' /\ b = b'.
  Proof.
    revert a'. induction a as [|y a IH]; intros a' H S1 S2 B1 B2; destruct a' as [|y' a']; cbn in H.
    - injection H as -> ->. auto.
    - injection H as -> ->. apply Forall_app in B1 as [_ B1]. inversion B1. contradiction.
    - injection H as -> <-. apply Forall_app in B2 as [_ B2]. inversion B2. contradiction.
    - injection H as -> H. destruct (IH a' H S1 S2 B1 B2) as (-> & -> & ->). auto.
  Qed.
  (** At a new start the thread had finished. *)
  Lemma at_start c ls s l s' : pinv ls s -> step s l s' -> starts c l -> resting c ls.
  Proof.
    intros [A B] H HS. destruct l as [| | |c' w| | | | |w| |]; cbn in HS; try contradiction; subst.
    - inversion H; subst.
      + match goal with X : shell_step _ _ _ _ _ _ _ |- _ => inversion X; subst end; try exact A.
        * match goal with X : gstep _ _ _ _ _ _ |- _ => apply (gstep_starts _ _ _ _ _ _ _ c) in X; now destruct X end.
        * match goal with X : gstep _ _ _ _ _ _ |- _ => apply (gstep_starts _ _ _ _ _ _ _ c) in X; now destruct X end.
      + match goal with X : control_step _ _ _ _ _ _ |- _ => inversion X; subst end; try exact B.
        match goal with X : gstep _ _ _ _ _ _ |- _ => apply (gstep_starts _ _ _ _ _ _ _ c) in X; now destruct X end.
    - inversion H; subst.
      + match goal with X : shell_step _ _ _ _ _ _ _ |- _ => inversion X; subst end; try exact A.
        * match goal with X : gstep _ _ _ _ _ _ |- _ => apply (gstep_starts _ _ _ _ _ _ _ SHELL) in X; now destruct X end.
        * match goal with X : gstep _ _ _ _ _ _ |- _ => apply (gstep_starts _ _ _ _ _ _ _ SHELL) in X; now destruct X end.
      + match goal with X : control_step _ _ _ _ _ _ |- _ => apply control_who in X end. discriminate.
  Qed.
  Lemma not_same c a x b : starts c x -> ~ in_same c (a ++ x :: b).
  Proof. intros S H. apply Forall_app in H as [_ H]. inversion H. contradiction. Qed.
  Lemma handled_whole k start ls s c a w b l d : yrun v listener internal (y_init k start) ls s -> ls = (a ++ YHand c w :: b ++ l :: d)%list ->
    in_same c b -> starts c l -> follows c (listener c w) (own_labels c b) (Ret tt).
  Proof.
    intros H -> Hb Hl. replace (a ++ YHand c w :: b ++ l :: d)%list with ((a ++ YHand c w :: b) ++ l :: d)%list in H by (now rewrite <- app_assoc).
    destruct (yrun_prefix _ _ _ _ _ H) as (s1 & s2 & H1 & H2). pose proof (at_start c _ _ _ _ (run_pinv _ _ _ _ H1) H2 Hl) as R.
    destruct R as [R|[R|[-> R]]].
    - apply not_same in R; [destruct R|reflexivity].
    - destruct R as [a0 w0 b0 E Hs HP]. apply (last_start c) in E as (_ & E & ->); [|reflexivity|reflexivity|exact Hb|exact Hs]. injection E as <-. exact HP.
    - destruct R as [a0 w0 b0 E Hs HP]. apply (last_start SHELL) in E as (_ & E & _); [discriminate|reflexivity|reflexivity|exact Hb|exact Hs].
  Qed.
  Lemma internal_whole k start ls s a w b l d : yrun v listener internal (y_init k start) ls s -> ls = (a ++ YIntern w :: b ++ l :: d)%list ->
    in_same SHELL b -> starts SHELL l -> replied (internal w) (own_labels SHELL b).
  Proof.
    intros H -> Hb Hl. replace (a ++ YIntern w :: b ++ l :: d)%list with ((a ++ YIntern w :: b) ++ l :: d)%list in H by (now rewrite <- app_assoc).
    destruct (yrun_prefix _ _ _ _ _ H) as (s1 & s2 & H1 & H2). pose proof (at_start SHELL _ _ _ _ (run_pinv _ _ _ _ H1) H2 Hl) as R.
    destruct R as [R|[R|[_ R]]].
    - apply not_same in R; [destruct R|reflexivity].
    - destruct R as [a0 w0 b0 E Hs HP]. apply (last_start SHELL) in E as (_ & E & _); [discriminate|reflexivity|reflexivity|exact Hb|exact Hs].
    - destruct R as [a0 w0 b0 E Hs HP]. apply (last_start SHELL) in E as (_ & E & ->); [|reflexivity|reflexivity|exact Hb|exact Hs]. injection E as <-. exact HP.
  Qed.
  Lemma gfollows_on c A (p : kprog U A) b g : gfollows c p b g -> follows_on c p b.
  Proof. destruct g; cbn; [left; eauto|]. intros (b' & w & -> & H). right. eauto 6. Qed.
  Lemma handled_part k start ls s c a w b : yrun v listener internal (y_init k start) ls s -> ls = (a ++ YHand c w :: b)%list -> in_same c b ->
    follows_on c (listener c w) (own_labels c b).
  Proof.
    intros H -> Hb. destruct (run_pinv _ _ _ _ H) as [A B].
    assert (R : resting c (a ++ YHand c w :: b) \/ (exists g, since_hand c (a ++ YHand c w :: b) (fun p b => gfollows c p b g)) \/ (c = SHELL /\ exists P, since_intern (a ++ YHand c w :: b) P)).
    { destruct c; [destruct (y_sh s)|destruct (y_ct s)]; cbn in A, B; eauto 6. }
    destruct R as [[R|[R|[-> R]]]|[[g R]|[-> [P R]]]].
    - apply not_same in R; [destruct R|reflexivity].
    - destruct R as [a0 w0 b0 E Hs HP]. apply (last_start c) in E as (_ & E & ->); [|reflexivity|reflexivity|exact Hb|exact Hs]. injection E as <-. left. eexists. exact HP.
    - destruct R as [a0 w0 b0 E Hs HP]. apply (last_start SHELL) in E as (_ & E & _); [discriminate|reflexivity|reflexivity|exact Hb|exact Hs].
    - destruct R as [a0 w0 b0 E Hs HP]. apply (last_start c) in E as (_ & E & ->); [|reflexivity|reflexivity|exact Hb|exact Hs]. injection E as <-. eapply gfollows_on; eauto.
    - destruct R as [a0 w0 b0 E Hs HP]. apply (last_start SHELL) in E as (_ & E & _); [discriminate|reflexivity|reflexivity|exact Hb|exact Hs].
  Qed.
  Lemma internal_part k start ls s a w b : yrun v listener internal (y_init k start) ls s -> ls = (a ++ YIntern w :: b)%list -> in_same SHELL b ->
    follows_on SHELL (internal w) (own_labels SHELL b) \/ replied (internal w) (own_labels SHELL b).
  Proof.
    intros H -> Hb. destruct (run_pinv _ _ _ _ H) as [A _].
    assert (R : resting SHELL (a ++ YIntern w :: b) \/ (exists g, since_intern (a ++ YIntern w :: b) (fun p b => gfollows SHELL p b g)) \/ (exists P, since_hand SHELL (a ++ YIntern w :: b) P)).
    { destruct (y_sh s); cbn in A; eauto 6. }
    destruct R as [[R|[R|[_ R]]]|[[g R]|[P R]]].
    - apply not_same in R; [destruct R|reflexivity].
    - destruct R as [a0 w0 b0 E Hs HP]. apply (last_start SHELL) in E as (_ & E & _); [discriminate|reflexivity|reflexivity|exact Hb|exact Hs].
    - destruct R as [a0 w0 b0 E Hs HP]. apply (last_start SHELL) in E as (_ & E & ->); [|reflexivity|reflexivity|exact Hb|exact Hs]. injection E as <-. right. exact HP.
    - destruct R as [a0 w0 b0 E Hs HP]. apply (last_start SHELL) in E as (_ & E & ->); [|reflexivity|reflexivity|exact Hb|exact Hs]. injection E as <-. left. eapply gfollows_on; eauto.
    - destruct R as [a0 w0 b0 E Hs HP]. apply (last_start SHELL) in E as (_ & E & _); [discriminate|reflexivity|reflexivity|exact Hb|exact Hs].
  Qed.
End Path.
