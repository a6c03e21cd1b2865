(** The iopub sockets with their high-water marks: proofs. *)
From Verif Require Import Base BaseFacts Json Message Comm Tree Kernel Server ServerSpec ServerProofs SplitStop ServerLemmas Join JoinSpec JoinProofs SequentialSpec Bounded BoundedSpec.

Lemma prefix_begins t w : wants t w = true <-> begins t w.
Proof.
  unfold wants, begins, first_frame.
  assert (P : forall a b, String.prefix a b = true <-> exists r, b = a +++ r).
  { induction a as [|c a IH]; intros b; [split; [intros _; exists b; reflexivity|destruct b; reflexivity]|]. destruct b as [|d b].
    { split; [intros R; discriminate R|intros [r R]; discriminate R]. }
    cbn [String.prefix].
    destruct (Ascii.ascii_dec c d) as [->|N]; [rewrite IH; split; intros [r R]; exists r; [now rewrite R|now injection R as R]|].
    split; [discriminate|intros [r R]; injection R as R _; congruence]. }
  destruct w as [|x w]; [|apply P]. rewrite P. split; [intros [r R]; destruct t; [reflexivity|discriminate R]|intros ->; now exists ""].
Qed.
Lemma some_app t a b c d : some_of t a b -> some_of t c d -> some_of t (a ++ c) (b ++ d).
Proof. induction 1; cbn; auto; intros; constructor; auto. Qed.
Lemma some_sub t a b c : some_of t a b -> sub b c -> some_of t a c.
Proof.
  intros S B. revert a S. induction B as [|b c x B IH|b c x B IH]; intros a S; [exact S|constructor; auto|].
  inversion S; subst; constructor; auto.
Qed.
Lemma some_none t b : some_of t [] b.
Proof. induction b; constructor; auto. Qed.
Lemma some_prefix t a b c : some_of t (a ++ b) c -> some_of t a c.
Proof.
  intros S. remember (a ++ b)%list as ab eqn:Eab. revert a Eab. induction S as [|w x y B S IH|w x y S IH]; intros a Eab.
  - destruct a; [constructor|discriminate].
  - destruct a as [|w' a]; [apply some_none|]. injection Eab as -> Eab. constructor; auto.
  - constructor; auto.
Qed.
Lemma all_app t a b c d : all_of t a b -> all_of t c d -> all_of t (a ++ c) (b ++ d).
Proof. induction 1; cbn; auto; intros; constructor; auto. Qed.
Lemma sub_app {A} (a b c d : list A) : sub a b -> sub c d -> sub (a ++ c) (b ++ d).
Proof. induction 1; cbn; auto; intros; [apply sub_skip|apply sub_take]; auto. Qed.
Lemma sub_all {A} (a : list A) : sub a a.
Proof. induction a; [constructor|apply sub_take; auto]. Qed.
Lemma sub_empty {A} (a : list A) : sub [] a.
Proof. induction a; constructor; auto. Qed.
Lemma sub_trans {A} (a b c : list A) : sub a b -> sub b c -> sub a c.
Proof. intros S T. revert a S. induction T as [|b c x T IH|b c x T IH]; intros a S; [exact S|constructor; auto|]. inversion S; subst; [apply sub_skip|apply sub_take]; auto. Qed.
Lemma sub_firsts {A} (a b : list A) : sub a (a ++ b).
Proof. rewrite <- (app_nil_r a) at 1. apply sub_app; [apply sub_all|apply sub_empty]. Qed.
Lemma set_nth_same {A} i (x y : A) l : nth_error l i = Some y -> nth_error (set_nth i x l) i = Some x.
Proof. revert l. induction i as [|i IH]; intros [|z l]; cbn; try discriminate; auto. Qed.
Lemma set_nth_other {A} i j (x : A) l : i <> j -> nth_error (set_nth i x l) j = nth_error l j.
Proof. revert j l. induction i as [|i IH]; intros [|j] [|z l] N; cbn; auto. congruence. Qed.
Lemma set_nth_len {A} i (x : A) l : List.length (set_nth i x l) = List.length l.
Proof. revert l. induction i as [|i IH]; intros [|z l]; cbn; auto. Qed.
Lemma forall2_nth {A B} (R : A -> B -> Prop) l l' i y : Forall2 R l l' -> nth_error l' i = Some y -> exists x, nth_error l i = Some x /\ R x y.
Proof. intros F. revert i. induction F as [|a b l l' H F IH]; intros [|i]; cbn; try discriminate; [intros [= <-]; eauto|apply IH]. Qed.

Lemma forall2_len {A B} (R : A -> B -> Prop) l l' : Forall2 R l l' -> List.length l' = List.length l.
Proof. induction 1; cbn; auto. Qed.

(** ** Labels *)
Definition no_subscribe (l : blabel) : Prop := match l with BSubscribe _ => False | _ => True end.
Lemma sent_app a b : sent_on (a ++ b) = (sent_on a ++ sent_on b)%list.
Proof. apply flat_map_app. Qed.
Lemma spoken_app a b : spoken (a ++ b) = (spoken a ++ spoken b)%list.
Proof. apply flat_map_app. Qed.
Lemma read_app i a b : read_by i (a ++ b) = (read_by i a ++ read_by i b)%list.
Proof. apply flat_map_app. Qed.
Lemma topic_app i a b t : topic_of i a = Some t -> topic_of i (a ++ b) = Some t /\ after_subscribe i (a ++ b) = (after_subscribe i a ++ sent_on b)%list.
Proof.
  revert i. induction a as [|l a IH]; intros i; [discriminate|]. cbn. destruct l; auto. destruct i; auto. intros [= ->]. split; auto. apply sent_app.
Qed.
(** The number of subscriptions. *)
Definition subscribed (ls : list blabel) : nat := List.length (filter (fun l => match l with BSubscribe _ => true | _ => false end) ls).
Lemma topic_new a t : topic_of (subscribed a) (a ++ [BSubscribe t]) = Some t /\ after_subscribe (subscribed a) (a ++ [BSubscribe t]) = [].
Proof. induction a as [|l a IH]; [cbn; auto|]. destruct l; cbn; auto. Qed.
Lemma topic_count i a : subscribed a <= i -> topic_of i a = None.
Proof. revert i. induction a as [|l a IH]; intros i; [reflexivity|]. unfold subscribed in *. destruct l; cbn; auto. destruct i; [lia|]. intros H. apply IH. lia. Qed.
Lemma topic_some i a : i < subscribed a -> exists t, topic_of i a = Some t.
Proof. revert i. induction a as [|l a IH]; intros i; unfold subscribed in *; cbn; [lia|]. destruct l; cbn; auto. destruct i; [eauto|]. intros H. apply IH. lia. Qed.

Section Sim.
  Context {U : Type}.
  Variable listener : channel -> frames -> kprog U unit.
  Variables lo hi lo' hi' : nat.
  Notation bstep := (bstep listener lo hi lo' hi'). Notation brun := (brun listener lo hi lo' hi').

  (** ** The publisher thread *)
  Lemma fnext_out f f' : fnext f = Some f' -> f_out f' = (f_out f ++ match sending f with Some w => [w] | None => [] end)%list.
  Proof.
    unfold fnext, sending. destruct (f_pc f).
    - destruct (f_in f); [destruct (asked _); [|discriminate]|]; intros [= <-]; now rewrite app_nil_r.
    - destruct (f_in f); [discriminate|]. intros [= <-]. now rewrite app_nil_r.
    - now intros [= <-].
    - destruct (f_ctl f); try discriminate. intros [= <-]. now rewrite app_nil_r.
    - discriminate.
  Qed.
  Lemma mop_out o (m m' : mem U) x : mop o m m' x -> f_out (m_pub m') = f_out (m_pub m).
  Proof.
    destruct o; cbn; intros H; try (match type of H with _ /\ _ = _ => destruct H as [H1 H2] end; subst m'; reflexivity).
    - subst m'. now destruct e.
    - destruct H as (_ & -> & _). reflexivity.
    - now subst m'.
    - destruct (m_shellq m); destruct H as [-> _]; reflexivity.
    - contradiction.
  Qed.
  Lemma main_out s l s' : main_step listener s l s' -> f_out (m_pub (d_mem s')) = f_out (m_pub (d_mem s)).
  Proof. intros H. destruct H; cbn [d_mem]; try reflexivity; eapply mop_out; eassumption. Qed.
  Lemma delivered_out j (s : dsys U) l s' : main_step listener s l s' -> f_out (m_pub (d_mem (delivered j s l s'))) = f_out (m_pub (d_mem s)).
  Proof. intros H. apply main_out in H. unfold delivered. destruct l as [| | | | | | |e|]; auto. destruct e; auto. destruct j; auto. Qed.
  (** What was taken by the publisher's pipe. *)
  Definition taken_in (l : blabel) : list frames := match l with BMain (Emitted (EPublish _ _ w)) true => [w] | _ => [] end.
  Definition fpub (b : bsys U) : fwd := m_pub (d_mem (b_sys b)).
  Lemma bstep_pub b l b' : bstep b l b' -> f_all (fpub b') = (f_all (fpub b) ++ taken_in l)%list /\ f_out (fpub b') = (f_out (fpub b) ++ sent_on [l])%list.
  Proof.
    intros H. destruct H; unfold fpub; cbn [b_sys d_mem].
    - rewrite (delivered_all listener taken s l s' H), (delivered_out taken s l s' H). split; [f_equal|cbn; now rewrite app_nil_r].
      destruct l as [| | | | | | |e|]; try (destruct taken; reflexivity). destruct e; destruct taken; reflexivity.
    - cbn. rewrite (fnext_all _ _ H0), (fnext_out _ _ H0), H1. cbn. now rewrite app_nil_r.
    - cbn. rewrite (fnext_all _ _ H0), (fnext_out _ _ H0), H1. cbn. now rewrite !app_nil_r.
    - cbn. now rewrite !app_nil_r.
    - destruct (env_pub listener _ _ _ H H0) as (-> & _). cbn. now rewrite !app_nil_r.
    - cbn. now rewrite !app_nil_r.
    - cbn. now rewrite !app_nil_r.
  Qed.
  Lemma taken_spoken l : sub (taken_in l) (spoken [l]).
  Proof. destruct l as [l t| | | | | |]; cbn; try apply sub_empty. destruct l as [| | | | | | |e|]; cbn; try apply sub_empty. destruct e, t; cbn; first [apply sub_empty|apply sub_all]. Qed.
  Lemma brun_pub k start ls b : brun (b_init k start) ls b -> f_out (fpub b) = sent_on ls /\ sub (f_all (fpub b)) (start :: spoken ls).
  Proof.
    remember (b_init k start) as b0 eqn:E. induction 1 as [|b0 ls b1 l b2 H IH S]; [subst; split; [reflexivity|apply sub_all]|].
    destruct (IH E) as (A & B). destruct (bstep_pub _ _ _ S) as (-> & ->). rewrite sent_app, spoken_app, A. split; auto. change (start :: spoken ls ++ spoken [l])%list with ((start :: spoken ls) ++ spoken [l])%list.
    apply sub_app; auto. apply taken_spoken.
  Qed.
  Lemma brun_prefix b0 l r b : brun b0 (l ++ r) b -> exists b1, brun b0 l b1.
  Proof.
    revert b. induction r as [|x r IH] using rev_ind; intros b H; [rewrite app_nil_r in H; eauto|]. rewrite app_assoc in H. remember ((l ++ r) ++ [x])%list as xs eqn:E.
    destruct H as [|b0 ls b1 y b2 H Hs]; [now destruct (app_cons_not_nil _ _ _ E)|]. apply app_inj_tail in E as [-> ->]. eauto.
  Qed.
  Lemma brun_kept k start ls b : brun (b_init k start) ls b -> publisher_keeps_up lo ls -> f_all (fpub b) = (start :: spoken ls)%list.
  Proof.
    remember (b_init k start) as b0 eqn:E. induction 1 as [|b0 ls b1 l b2 H IH S]; intros K; [subst; reflexivity|]. subst.
    assert (publisher_keeps_up lo ls) as K1 by (intros x y ->; apply (K x (y ++ [l])%list); now rewrite app_assoc).
    specialize (IH eq_refl K1). specialize (K1 ls [] (eq_sym (app_nil_r _))). destruct (bstep_pub _ _ _ S) as (-> & _). rewrite IH, spoken_app. cbn [app]. do 2 f_equal.
    destruct (brun_pub _ _ _ _ H) as (O & _). destruct S as [s l s' rs taken M F| | | | | |]; try reflexivity. destruct l as [| | | | | | |e|]; try reflexivity. destruct e; try reflexivity.
    destruct taken; [reflexivity|]. exfalso. cbn in F. unfold fpub, waiting in *. cbn in *. apply (f_equal (@List.length frames)) in IH. unfold f_all in IH. rewrite !app_length, O in IH. cbn in IH. lia.
  Qed.

  (** ** The subscribers *)
  Lemma offer_pipe w a a' : offer lo' hi' w a a' -> r_topic a' = r_topic a /\ r_read a' = r_read a /\
    ((r_pipe a' = (r_pipe a ++ [w])%list /\ begins (r_topic a) w) \/ r_pipe a' = r_pipe a /\ (begins (r_topic a) w -> lo' <= List.length (r_pipe a))).
  Proof.
    intros [a1 N|a1 Y L|a1 Y L]; cbn; repeat split; auto.
    - right. split; auto. intros B. apply prefix_begins in B. congruence.
    - left. split; auto. now apply prefix_begins.
  Qed.
  Lemma brun_readers k start ls b : brun (b_init k start) ls b -> List.length (b_readers b) = subscribed ls /\
    (forall i, subscribed ls <= i -> read_by i ls = []) /\
    forall i a, nth_error (b_readers b) i = Some a -> topic_of i ls = Some (r_topic a) /\ r_read a = read_by i ls /\ some_of (r_topic a) (r_read a ++ r_pipe a) (after_subscribe i ls) /\
      (reader_keeps_up lo' i ls -> all_of (r_topic a) (r_read a ++ r_pipe a) (after_subscribe i ls)).
  Proof.
    remember (b_init k start) as b0 eqn:E. induction 1 as [|b0 ls b1 l b2 H IH S].
    { subst. cbn. split; [reflexivity|]. split; [reflexivity|]. intros [|i] a; discriminate. }
    destruct (IH E) as (N & R & IHr). clear IH.
    assert (Kp : forall i, reader_keeps_up lo' i (ls ++ [l]) -> reader_keeps_up lo' i ls).
    { intros i K x y t z ->. apply (K x (y ++ [l])%list t z). now rewrite app_assoc. }
    assert (Q : no_subscribe l -> sent_on [l] = [] -> (forall i, read_by i [l] = []) -> b_readers b2 = b_readers b1 ->
      List.length (b_readers b2) = subscribed (ls ++ [l]) /\ (forall i, subscribed (ls ++ [l]) <= i -> read_by i (ls ++ [l]) = []) /\
      forall i a, nth_error (b_readers b2) i = Some a -> topic_of i (ls ++ [l]) = Some (r_topic a) /\ r_read a = read_by i (ls ++ [l]) /\
        some_of (r_topic a) (r_read a ++ r_pipe a) (after_subscribe i (ls ++ [l])) /\ (reader_keeps_up lo' i (ls ++ [l]) -> all_of (r_topic a) (r_read a ++ r_pipe a) (after_subscribe i (ls ++ [l])))).
    { intros Q1 Q2 Q3 ->. assert (subscribed (ls ++ [l]) = subscribed ls) as -> by (unfold subscribed; rewrite filter_app, app_length; destruct l; try contradiction; cbn; lia).
      split; auto. split; [intros i Hi; rewrite read_app, Q3, app_nil_r; auto|]. intros i a Ha. destruct (IHr i a Ha) as (T & Rd & So & Al).
      destruct (topic_app i ls [l] _ T) as (T' & A'). rewrite A', Q2, read_app, Q3, !app_nil_r. auto 8. }
    destruct S as [s l s' rs taken M F|pc m f w rs rs' Al F Sd O|pc m f rs Al F Sd|pc m f rs Al F|s l s' rs D Ar|s rs topic|s rs i a w q Hi Hq]; try (apply Q; auto; exact I); cbn [b_readers] in *; clear Q.
    - assert (subscribed (ls ++ [BSend w]) = subscribed ls) as -> by (unfold subscribed; rewrite filter_app, app_length; cbn; lia).
      split; [rewrite (forall2_len _ _ _ O); auto|]. split; [intros i Hi; rewrite read_app; cbn; rewrite app_nil_r; auto|]. intros i a Ha. destruct (forall2_nth _ _ _ _ _ O Ha) as (a0 & H0 & Of).
      destruct (IHr i a0 H0) as (T & Rd & So & All). destruct (topic_app i ls [BSend w] _ T) as (T' & A'). rewrite A', read_app. cbn [read_by sent_on flat_map app].
      destruct (offer_pipe _ _ _ Of) as (-> & -> & P). rewrite app_nil_r. split; auto. split; auto. destruct P as [(-> & B)|(-> & B)].
      + rewrite app_assoc. split; [apply some_app; auto; constructor; auto; constructor|]. intros K. apply all_app; auto. constructor; auto. constructor.
      + split; [rewrite <- (app_nil_r (r_read a0 ++ r_pipe a0)); apply some_app; auto; apply some_none|]. intros K. specialize (All (Kp _ K)).
        rewrite <- (app_nil_r (r_read a0 ++ r_pipe a0)). apply all_app; auto. constructor; [|constructor]. intros B'. specialize (B B').
        specialize (Kp _ K ls [] _ _ (eq_sym (app_nil_r _)) T All). rewrite app_length, Rd in Kp. lia.
    - assert (subscribed (ls ++ [BSubscribe topic]) = S (subscribed ls)) as -> by (unfold subscribed; rewrite filter_app, app_length; cbn; lia).
      split; [rewrite app_length; cbn; lia|]. split; [intros i Hi; rewrite read_app; cbn; rewrite app_nil_r; apply R; lia|]. intros i a Ha.
      destruct (Nat.ltb_spec i (List.length rs)) as [L|L].
      + rewrite nth_error_app1 in Ha by exact L. destruct (IHr i a Ha) as (T & Rd & So & All). destruct (topic_app i ls [BSubscribe topic] _ T) as (T' & A'). rewrite A', read_app. cbn. rewrite !app_nil_r. auto 8.
      + rewrite nth_error_app2 in Ha by exact L. destruct (i - List.length rs) as [|x] eqn:X; [|destruct x; discriminate]. injection Ha as <-. assert (i = subscribed ls) as -> by lia. cbn.
        destruct (topic_new ls topic) as (-> & ->). rewrite read_app, R by lia. split; auto. split; auto. split; [constructor|intros _; constructor].
    - assert (subscribed (ls ++ [BRead i w]) = subscribed ls) as -> by (unfold subscribed; rewrite filter_app, app_length; cbn; lia).
      split; [rewrite set_nth_len; auto|]. split.
      { intros j Hj. rewrite read_app, R by exact Hj. cbn. destruct (Nat.eqb_spec i j) as [->|]; auto. exfalso. assert (nth_error rs j <> None) as X by congruence. apply nth_error_Some in X. lia. }
      intros j c Hc. destruct (Nat.eq_dec i j) as [->|Nj].
      + rewrite (set_nth_same _ _ _ _ Hi) in Hc. injection Hc as <-. cbn [r_topic r_read r_pipe]. destruct (IHr j a Hi) as (T & Rd & So & All). destruct (topic_app j ls [BRead j w] _ T) as (T' & A'). rewrite A', read_app. cbn. rewrite Nat.eqb_refl, !app_nil_r, Rd.
        rewrite Hq, Rd in So, All. split; [exact T'|]. split; [reflexivity|]. rewrite <- app_assoc. cbn [app]. split; [exact So|]. intros K. exact (All (Kp _ K)).
      + rewrite set_nth_other in Hc by exact Nj. destruct (IHr j c Hc) as (T & Rd & So & All). destruct (topic_app j ls [BRead i w] _ T) as (T' & A'). rewrite A', read_app. cbn. apply Nat.eqb_neq in Nj. rewrite Nj, !app_nil_r. auto 8.
  Qed.

  (** ** The other threads *)
  Lemma bmain_lag k start ls b : brun (b_init k start) ls b ->
    exists g l2, drun listener (d_init k start) l2 (with_pub g (b_sys b)) /\ lag (m_pub (d_mem (b_sys b))) g /\ filter visible l2 = bseen ls.
  Proof.
    remember (b_init k start) as b0 eqn:E. induction 1 as [|b0 ls b1 l b2 H IH S].
    - subst. exists (f_push start f_init), []. split; [constructor|]. split; [|reflexivity]. split; [reflexivity|]. split; [reflexivity|]. intros c; discriminate.
    - subst b0. destruct (IH eq_refl) as (g & l2 & D & L & V). clear IH H. unfold bseen in *. rewrite flat_map_app. cbn [flat_map]. rewrite app_nil_r, <- V.
      assert (T : forall pc m f, alive pc -> drun listener (d_init k start) l2 {| d_pc := pc; d_mem := set_pub g m |} -> lag (m_pub m) g -> fnext (m_pub m) = Some f ->
        exists g' l3, drun listener (d_init k start) l3 (with_pub g' {| d_pc := pc; d_mem := set_pub f m |}) /\ lag f g' /\ filter visible l3 = (filter visible l2 ++ [])%list).
      { intros pc m f A D1 L1 N1. destruct (lag_next _ _ _ L1 N1) as (g' & S' & L'). destruct (pub_steps listener k start l2 pc m g g' D1 A S') as (n & D'). exists g', (l2 ++ repeat Tau n)%list. split; [exact D'|]. split; auto.
        rewrite filter_app, app_nil_r. replace (filter visible (repeat Tau n)) with (@nil label); [now rewrite app_nil_r|]. clear. induction n; cbn; auto. }
      destruct S as [s l s' rs taken M F|pc m f w rs rs' Al F Sd O|pc m f rs Al F Sd|pc m f rs Al F|s l s' rs D1 Ar|s rs topic|s rs i a w q Hi Hq]; cbn [b_sys d_mem d_pc] in *.
      + destruct (main_lag listener taken _ _ _ _ M L) as (g' & M' & L'). exists g', (l2 ++ [l])%list. split; [econstructor; [exact D|now constructor]|]. split; auto.
        rewrite filter_app. cbn. now destruct (visible l).
      + exact (T pc m f Al D L F).
      + exact (T pc m f Al D L F).
      + exists g, (l2 ++ [Tau])%list. split; [econstructor; [exact D|]; exact (ds_hb listener pc (set_pub g m) f Al F)|]. split; [exact L|]. rewrite filter_app. reflexivity.
      + destruct (env_pub listener _ _ _ D1 Ar) as (P1 & P2). rewrite P1. exists g, (l2 ++ [l])%list. split; [|split; [exact L|]].
        * econstructor; [exact D|]. destruct D1; cbn in Ar; try contradiction; unfold with_pub; cbn.
          -- exfalso. destruct H; cbn in Ar; auto; destruct o; cbn in Ar; auto; [destruct e; auto|destruct x; auto|destruct e; auto|destruct x; auto].
          -- exact (ds_control listener pc (set_pub g m) w).
          -- exact (ds_shell listener pc (set_pub g m) w).
          -- exact (ds_beat listener pc (set_pub g m) w).
          -- exact (ds_stdin listener pc (set_pub g m)).
        * rewrite filter_app. cbn. now destruct (visible l).
      + exists g, l2. rewrite app_nil_r. auto.
      + exists g, l2. rewrite app_nil_r. auto.
  Qed.
End Sim.
