(** Facts about the base definitions. *)
From Verif Require Import Base.
From Coq Require Import DecimalString DecimalZ DecimalPos DecimalN Decimal DecimalFacts.

(** ** String order *)
Lemma scompare_refl s : String.compare s s = Eq.
Proof.
  induction s as [|a s IH]; cbn; auto. unfold Ascii.compare. now rewrite N.compare_refl.
Qed.

Lemma ascii_compare_code a b : Ascii.compare a b = N.compare (code a) (code b).
Proof. reflexivity. Qed.

Lemma scompare_trans a b c :
  String.compare a b = Lt -> String.compare b c = Lt -> String.compare a c = Lt.
Proof.
  revert b c; induction a as [|x a IH]; intros [|y b] [|z c]; cbn; intros H1 H2; try discriminate; auto.
  rewrite !ascii_compare_code in *.
  destruct (N.compare_spec (code x) (code y)) as [E1|E1|E1]; try discriminate;
  destruct (N.compare_spec (code y) (code z)) as [E2|E2|E2]; try discriminate.
  - destruct (N.compare_spec (code x) (code z)); [eauto|auto|lia].
  - destruct (N.compare_spec (code x) (code z)); [lia|auto|lia].
  - destruct (N.compare_spec (code x) (code z)); [lia|auto|lia].
  - destruct (N.compare_spec (code x) (code z)); [lia|auto|lia].
Qed.

Lemma str_ltb_lt a b : str_ltb a b = true <-> String.compare a b = Lt.
Proof. unfold str_ltb; destruct (String.compare a b); split; congruence. Qed.
Lemma str_ltb_trans a b c : str_ltb a b = true -> str_ltb b c = true -> str_ltb a c = true.
Proof. rewrite !str_ltb_lt; apply scompare_trans. Qed.
Lemma str_ltb_irrefl a : str_ltb a a = false.
Proof. unfold str_ltb; now rewrite scompare_refl. Qed.
Lemma scompare_gt_lt a b : String.compare a b = Gt <-> String.compare b a = Lt.
Proof.
  rewrite (String.compare_antisym a b).
  destruct (String.compare b a); cbn; split; congruence.
Qed.
Lemma str_ltb_neq a b : str_ltb a b = true -> a <> b.
Proof. intros H ->. now rewrite str_ltb_irrefl in H. Qed.

(** ** Sorted maps *)
Section SmapFacts.
  Context {V : Type}.
  Implicit Types m : list (string * V).

  Lemma mfind_mset_same k v m : mfind k (mset k v m) = Some v.
  Proof.
    induction m as [|[k' v'] m IH]; cbn.
    - now rewrite String.eqb_refl.
    - destruct (String.compare k k') eqn:E; cbn; rewrite ?String.eqb_refl; auto.
      destruct (String.eqb_spec k k') as [->|]; auto.
      now rewrite scompare_refl in E.
  Qed.
  Lemma mfind_mset_other k k' v m : k <> k' -> mfind k (mset k' v m) = mfind k m.
  Proof.
    intros Hn. induction m as [|[k2 v2] m IH]; cbn.
    - destruct (String.eqb_spec k k'); congruence.
    - destruct (String.compare k' k2) eqn:E; cbn.
      + apply String.compare_eq_iff in E as ->.
        destruct (String.eqb_spec k k2); congruence.
      + destruct (String.eqb_spec k k'); congruence.
      + now rewrite IH.
  Qed.
  Lemma mfind_mset k k' v m :
    mfind k (mset k' v m) = if String.eqb k k' then Some v else mfind k m.
  Proof.
    destruct (String.eqb_spec k k') as [->|H]; [apply mfind_mset_same | now apply mfind_mset_other].
  Qed.

  (** All keys of [m] are above [k]. *)
  Definition mabove (k : string) m : Prop := Forall (fun p => str_ltb k (fst p) = true) m.

  Lemma msorted_cons k v m : msorted ((k, v) :: m) = true <-> mabove k m /\ msorted m = true.
  Proof.
    revert k v; induction m as [|[k' v'] m IH]; intros k v.
    - cbn; split; intros; [split; [constructor | auto] | auto].
    - change (msorted ((k, v) :: (k', v') :: m)) with (str_ltb k k' && msorted ((k', v') :: m)).
      rewrite andb_true_iff. split.
      + intros [H1 H2]. split; auto. apply IH in H2 as [H2 _].
        constructor; auto. eapply Forall_impl; [|exact H2]. cbn; intros p Hp.
        eapply str_ltb_trans; eauto.
      + intros [H1 H2]. split; auto. now inversion H1; subst.
  Qed.

  Lemma mabove_find k m : mabove k m -> mfind k m = None.
  Proof.
    induction 1 as [|[k' v'] m H _ IH]; cbn; auto.
    destruct (String.eqb_spec k k') as [->|]; auto. now cbn in H; rewrite str_ltb_irrefl in H.
  Qed.
  Lemma mabove_mset k k' v m : str_ltb k k' = true -> mabove k m -> mabove k (mset k' v m).
  Proof.
    intros Hk. induction 1 as [|[k2 v2] m H Hm IH]; cbn.
    - repeat constructor; auto.
    - destruct (String.compare k' k2); repeat constructor; auto.
  Qed.
  Lemma mset_sorted k v m : msorted m = true -> msorted (mset k v m) = true.
  Proof.
    induction m as [|[k' v'] m IH]; cbn [mset]; intros Hs; auto.
    apply msorted_cons in Hs as [Ha Hs].
    destruct (String.compare k k') eqn:E.
    - apply String.compare_eq_iff in E as ->. now apply msorted_cons.
    - apply msorted_cons; split.
      + constructor; [now apply str_ltb_lt|].
        eapply Forall_impl; [|exact Ha]. cbn; intros p Hp.
        eapply str_ltb_trans; eauto. now apply str_ltb_lt.
      + now apply msorted_cons.
    - apply msorted_cons; split; auto. apply mabove_mset; auto.
      apply str_ltb_lt, scompare_gt_lt, E.
  Qed.
  Lemma mdel_sorted k m : msorted m = true -> msorted (mdel k m) = true.
  Proof.
    induction m as [|[k' v'] m IH]; cbn [mdel]; intros Hs; auto.
    apply msorted_cons in Hs as [Ha Hs].
    destruct (String.eqb k k'); auto. apply msorted_cons; split; auto.
    clear -Ha. induction m as [|[k2 v2] m IH]; cbn; auto.
    inversion Ha; subst. destruct (String.eqb k k2); auto. constructor; auto. now apply IH.
  Qed.
  Lemma mfind_mdel k k' m :
    msorted m = true -> mfind k (mdel k' m) = if String.eqb k k' then None else mfind k m.
  Proof.
    induction m as [|[k2 v2] m IH]; cbn [mdel mfind]; intros Hs.
    - now destruct (String.eqb k k').
    - apply msorted_cons in Hs as [Ha Hs]. specialize (IH Hs).
      destruct (String.eqb_spec k' k2) as [->|Hn].
      + destruct (String.eqb_spec k k2) as [->|]; auto. now apply mabove_find.
      + cbn. rewrite IH. destruct (String.eqb_spec k k2) as [->|]; auto.
        destruct (String.eqb_spec k2 k') as [->|]; congruence.
  Qed.
  Lemma mset_above k v m : mabove k m -> mset k v m = (k, v) :: m.
  Proof.
    destruct m as [|[k' v'] m]; cbn; auto. intros H; inversion H; subst; cbn in *.
    apply str_ltb_lt in H2. now rewrite H2.
  Qed.
  Lemma mfind_in k v m : mfind k m = Some v -> In (k, v) m.
  Proof.
    induction m as [|[k' v'] m IH]; cbn; try discriminate.
    destruct (String.eqb_spec k k') as [->|]; auto. intros [= ->]; auto.
  Qed.
  Lemma in_mfind k v m : msorted m = true -> In (k, v) m -> mfind k m = Some v.
  Proof.
    induction m as [|[k' v'] m IH]; cbn [mfind]; intros Hs Hi; [destruct Hi|].
    apply msorted_cons in Hs as [Ha Hs]. destruct Hi as [[= -> ->]|Hi].
    - now rewrite String.eqb_refl.
    - destruct (String.eqb_spec k k') as [->|]; auto.
      unfold mabove in Ha. rewrite Forall_forall in Ha. specialize (Ha _ Hi). cbn in Ha. now rewrite str_ltb_irrefl in Ha.
  Qed.
  (** Sorted maps with the same bindings are equal. *)
  Lemma msorted_ext m1 m2 :
    msorted m1 = true -> msorted m2 = true -> (forall k, mfind k m1 = mfind k m2) -> m1 = m2.
  Proof.
    revert m2; induction m1 as [|[k1 v1] m1 IH]; intros [|[k2 v2] m2] H1 H2 He; auto.
    - specialize (He k2); cbn in He; now rewrite String.eqb_refl in He.
    - specialize (He k1); cbn in He; now rewrite String.eqb_refl in He.
    - apply msorted_cons in H1 as [A1 S1], H2 as [A2 S2].
      assert (k1 = k2) as ->.
      { destruct (String.compare k1 k2) eqn:E.
        - now apply String.compare_eq_iff.
        - pose proof (He k1) as H. cbn in H. rewrite String.eqb_refl in H.
          destruct (String.eqb_spec k1 k2) as [->|]; auto.
          symmetry in H. apply mfind_in in H. unfold mabove in A2. rewrite Forall_forall in A2.
          specialize (A2 _ H). cbn in A2. apply str_ltb_lt in E.
          pose proof (str_ltb_trans _ _ _ E A2) as X. now rewrite str_ltb_irrefl in X.
        - pose proof (He k2) as H. cbn in H. rewrite String.eqb_refl in H.
          destruct (String.eqb_spec k2 k1) as [->|]; auto.
          apply mfind_in in H. unfold mabove in A1. rewrite Forall_forall in A1.
          specialize (A1 _ H). cbn in A1. apply scompare_gt_lt, str_ltb_lt in E.
          pose proof (str_ltb_trans _ _ _ E A1) as X. now rewrite str_ltb_irrefl in X. }
      pose proof (He k2) as H. cbn in H. rewrite String.eqb_refl in H. injection H as ->.
      f_equal. apply IH; auto. intros k. specialize (He k). cbn in He.
      destruct (String.eqb_spec k k2) as [Ek|]; auto.
      rewrite Ek. now rewrite (mabove_find _ _ A1), (mabove_find _ _ A2).
  Qed.
  Lemma mmem_mset k k' v m : mmem k (mset k' v m) = String.eqb k k' || mmem k m.
  Proof. unfold mmem; rewrite mfind_mset; destruct (String.eqb k k'); auto. Qed.
  Lemma mset_mset k v w m : mset k v (mset k w m) = mset k v m.
  Proof.
    induction m as [|[k' v'] m IH]; cbn.
    - now rewrite scompare_refl.
    - destruct (String.compare k k') eqn:E; cbn; rewrite ?scompare_refl, ?E; auto. now rewrite IH.
  Qed.
End SmapFacts.

(** ** Decimal *)
Lemma Z_of_dec_of_Z z : Z_of_dec (dec_of_Z z) = Some z.
Proof.
  unfold Z_of_dec, dec_of_Z. rewrite NilZero.isi; cbn; [now rewrite DecimalZ.of_to| |].
  - destruct z as [|p|p]; cbn; try discriminate.
    intros [= H]. now apply (DecimalPos.Unsigned.to_uint_nonnil p).
  - destruct z as [|p|p]; cbn; try discriminate.
    intros [= H]. now apply (DecimalPos.Unsigned.to_uint_nonnil p).
Qed.
Lemma dec_of_Z_inj a b : dec_of_Z a = dec_of_Z b -> a = b.
Proof. intros H; apply (f_equal Z_of_dec) in H; rewrite !Z_of_dec_of_Z in H; congruence. Qed.
Lemma dec_of_N_Z n : dec_of_N n = dec_of_Z (Z.of_N n).
Proof. destruct n; reflexivity. Qed.
Lemma dec_of_N_inj a b : dec_of_N a = dec_of_N b -> a = b.
Proof. rewrite !dec_of_N_Z. intros H; apply dec_of_Z_inj in H. lia. Qed.
Lemma dec_of_nat_inj a b : dec_of_nat a = dec_of_nat b -> a = b.
Proof. intros H; apply dec_of_N_inj in H; lia. Qed.

Fixpoint sall (p : ascii -> bool) (s : string) : bool :=
  match s with "" => true | String c s' => p c && sall p s' end.
Lemma sall_app p a b : sall p (a +++ b) = sall p a && sall p b.
Proof. induction a as [|x a IH]; cbn; auto. now rewrite IH, andb_assoc. Qed.

Lemma nilempty_digits d : sall is_digit (NilEmpty.string_of_uint d) = true.
Proof. induction d; cbn; auto. Qed.
Lemma dec_of_N_digits n : sall is_digit (dec_of_N n) = true.
Proof.
  unfold dec_of_N, NilZero.string_of_uint. destruct (N.to_uint n) eqn:E; auto; apply nilempty_digits.
Qed.
Lemma dec_of_N_nonempty n : dec_of_N n <> "".
Proof.
  unfold dec_of_N, NilZero.string_of_uint. destruct (N.to_uint n) eqn:E; cbn; discriminate.
Qed.
