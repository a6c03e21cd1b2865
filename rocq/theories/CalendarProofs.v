(** What comes of concurrent calls of [iso8601_now]. *)
From Verif Require Import Base BaseFacts Json JsonText Logger HostSpec ClockProofs Calendar CalendarSpec.

Lemma field_beq_eq a b : field_beq a b = true <-> a = b.
Proof. destruct a, b; cbn; split; congruence. Qed.
Lemma set_same f z c : set_field f z c f = z.
Proof. unfold set_field. now destruct f. Qed.
Lemma set_other f g z c : g <> f -> set_field f z c g = c g.
Proof. intros N. unfold set_field. destruct (field_beq g f) eqn:H; [|reflexivity]. apply field_beq_eq in H. contradiction. Qed.
Lemma put_here i x f : put_at i x f i = x.
Proof. unfold put_at. now rewrite Nat.eqb_refl. Qed.
Lemma put_else i j x f : j <> i -> put_at i x f j = f j.
Proof. intros N. unfold put_at. apply Nat.eqb_neq in N. now rewrite N. Qed.
Lemma stamp_ext c d u : (forall f, c f = d f) -> stamp c u = stamp d u.
Proof. intros H. unfold stamp. now rewrite !H. Qed.
Lemma stamp_gm u : stamp (gm u) u = iso8601 u.
Proof. unfold stamp, gm, iso8601. destruct (civil (u / 1000000 / 86400)) as [[y m] d]. reflexivity. Qed.
Lemma gm_second u v : (u / 1000000 = v / 1000000)%Z -> gm u = gm v.
Proof. intros H. unfold gm. now rewrite H. Qed.

Definition clock_of (p : dating) : option Z := match p with Away => None | Writes u _ | Reads u _ _ => Some u end.
Lemma run_snoc s ls l s2 : date_run s (ls ++ [l]) s2 -> exists s1, date_run s ls s1 /\ date_step s1 l s2.
Proof.
  intros H. remember (ls ++ [l])%list as k eqn:Hk. destruct H as [s|s k s1 l' s2 H1 H2]; [now destruct ls|].
  apply app_inj_tail in Hk as [-> ->]. eauto.
Qed.
Lemma run_nil s s' : date_run s [] s' -> s' = s.
Proof. intros H. remember [] as k eqn:Hk. destruct H as [s|s k s1 l' s2 H1 H2]; [reflexivity|now destruct k]. Qed.
Lemma run_app s a b s2 : date_run s (a ++ b) s2 -> exists s1, date_run s a s1 /\ date_run s1 b s2.
Proof.
  revert s2. induction b as [|l b IH] using rev_ind; intros s2 H.
  - rewrite app_nil_r in H. exists s2. split; [exact H|constructor].
  - rewrite app_assoc in H. apply run_snoc in H as (s3 & H & H2). apply IH in H as (s1 & H & H1). exists s1. split; [exact H|]. eapply tr_snoc; eauto.
Qed.
Lemma pending_snoc j u ls l : pending j u ls -> (forall s, l <> TBack j s) -> pending j u (ls ++ [l]).
Proof.
  intros (a & b & -> & H) N. exists a, (b ++ [l])%list. split; [now rewrite <- app_assoc|]. intros s Hin. apply in_app_or in Hin as [Hin|[Hin|[]]]; [now apply (H s)|now apply (N s)].
Qed.
(** A thread in the function has a pending call. *)
Lemma run_pending c ls s j u : date_run (t_init c) ls s -> clock_of (t_at s j) = Some u -> pending j u ls.
Proof.
  intros H. remember (t_init c) as s0 eqn:H0. revert j u. induction H as [s|s ls s1 l s2 H IH Hst]; intros j u; [subst s; discriminate|].
  specialize (IH H0). inversion Hst; subst; cbn [t_at] in *; destruct (Nat.eq_dec j i) as [->|N];
    rewrite ?put_here, ?(put_else i j) by exact N; cbn [clock_of];
    try (intros Hc; apply pending_snoc; [now apply IH|congruence]; fail).
  - intros [= <-]. exists ls, []. split; [reflexivity|auto].
  - intros [= <-]. apply pending_snoc; [|congruence]. apply IH. now rewrite H1.
  - intros [= <-]. apply pending_snoc; [|congruence]. apply IH. now rewrite H1.
  - intros [= <-]. apply pending_snoc; [|congruence]. apply IH. now rewrite H1.
Qed.

(** During a call. *)
Section Call.
  Variable i : nat.
  Variable now : Z.
  Variable ts : Z -> Prop.
  Hypothesis own : ts now.
  Definition made (c : tm) (f : field) : Prop := exists u, ts u /\ c f = gm u f.
  Definition during_inv (s : dsystem) : Prop :=
    (forall j u, j <> i -> clock_of (t_at s j) = Some u -> ts u) /\
    match t_at s i with
    | Away => False
    | Writes u l => u = now /\ forall f, In f l \/ made (t_obj s) f
    | Reads u got l => u = now /\ forall f, made (t_obj s) f /\ (In f l \/ made got f)
    end.
  Lemma in_cut (f x : field) a b : In f (a ++ x :: b) -> f = x \/ In f (a ++ b).
  Proof. intros H. apply in_app_or in H as [H|[H|H]]; [right; apply in_or_app; auto|auto|right; apply in_or_app; auto]. Qed.
  Lemma made_set c x f u : ts u -> f = x \/ made c f -> made (set_field x (gm u x) c) f.
  Proof.
    intros Hu H. destruct (field_beq f x) eqn:B.
    - apply field_beq_eq in B as ->. exists u. split; [exact Hu|apply set_same].
    - assert (N : f <> x) by (intros E; apply field_beq_eq in E; congruence). destruct H as [H|(v & Hv & E)]; [contradiction|]. exists v. split; [exact Hv|]. now rewrite set_other.
  Qed.
  Lemma during_step s l s' : date_step s l s' -> (forall x, l <> TBack i x) -> (forall j u, j <> i -> l = TCall j u -> ts u) -> during_inv s -> during_inv s'.
  Proof.
    intros Hst Nb Hc [A B]. inversion Hst as [c f j t Hj Ht|c f j t a x b Hj|c f j t Hj|c f j t got a x b Hj|c f j t got Hj]; subst; cbn [t_at t_obj] in *; unfold during_inv; cbn [t_at t_obj]; (split;
      [intros j' u' N; destruct (Nat.eq_dec j' j) as [->|N']; [rewrite put_here; cbn [clock_of]; try discriminate; intros [= <-]; try (apply (A j); [exact N|now rewrite Hj])|rewrite put_else by exact N'; now apply A]|]); try (eapply Hc; eauto; fail).
    - destruct (Nat.eq_dec i j) as [->|N]; [rewrite Hj in B; contradiction|now rewrite put_else].
    - destruct (Nat.eq_dec i j) as [->|N].
      + rewrite Hj in B. destruct B as [-> B]. rewrite put_here. split; [reflexivity|]. intros g. destruct (B g) as [H|H].
        * apply in_cut in H as [->|H]; [right; apply made_set; auto|auto].
        * right. apply made_set; auto.
      + rewrite put_else by exact N. assert (Ht : ts t) by (apply (A j); [auto|now rewrite Hj]).
        destruct (f i) as [|u l|u got l]; [exact B| |]; destruct B as [E B]; (split; [exact E|]); intros g; specialize (B g).
        * destruct B as [B|B]; [now left|]. right. now apply made_set; auto.
        * destruct B as [B1 B2]. split; [apply made_set; auto|exact B2].
    - destruct (Nat.eq_dec i j) as [->|N]; [|now rewrite put_else].
      rewrite Hj in B. destruct B as [-> B]. rewrite put_here. split; [reflexivity|]. intros g. destruct (B g) as [[]|H]. split; [exact H|]. left. destruct g; cbn; auto 10.
    - destruct (Nat.eq_dec i j) as [->|N]; [|now rewrite put_else].
      rewrite Hj in B. destruct B as [-> B]. rewrite put_here. split; [reflexivity|]. intros g. destruct (B g) as [H1 H2]. split; [exact H1|].
      destruct (B x) as [(v & Hv & E) _]. rewrite E. destruct H2 as [H2|H2].
      + apply in_cut in H2 as [->|H2]; [|now left]. right. exists v. split; [exact Hv|apply set_same].
      + right. apply made_set; auto.
    - destruct (Nat.eq_dec i j) as [->|N]; [exfalso; now apply (Nb (stamp got t))|now rewrite put_else].
  Qed.
  Lemma during_run s ls s' : date_run s ls s' -> (forall x, ~ In (TBack i x) ls) -> (forall j u, j <> i -> In (TCall j u) ls -> ts u) -> during_inv s -> during_inv s'.
  Proof.
    intros H. induction H as [s|s ls s1 l s2 H IH Hst]; intros Nb Hc I; [exact I|]. eapply during_step; [exact Hst| | |apply IH; auto].
    - intros x ->. apply (Nb x), in_or_app. right; now left.
    - intros j u N ->. apply (Hc j u N), in_or_app. right; now left.
    - intros x Hin. apply (Nb x), in_or_app. now left.
    - intros j u N Hin. apply (Hc j u N), in_or_app. now left.
  Qed.
End Call.

Lemma mixtures c ls s i now before during x : date_run (t_init c) ls s -> call_of i now before during x ls ->
  mixture (fun u => u = now \/ overlaps i before during u) now x.
Proof.
  intros H (rest & -> & Nb). apply run_app in H as (s1 & H1 & H). change (TCall i now :: (during ++ TBack i x :: rest))%list with ([TCall i now] ++ (during ++ [TBack i x] ++ rest))%list in H.
  apply run_app in H as (s2 & H2 & H). apply run_app in H as (s3 & H3 & H). apply run_app in H as (s4 & H4 & _).
  set (ts := fun u => u = now \/ overlaps i before during u).
  assert (I2 : during_inv i now ts s2).
  { apply (run_snoc s1 [] _ s2) in H2 as (s1' & A & H2). apply run_nil in A as ->.
    inversion H2; subst. split; cbn [t_at t_obj].
    - intros j u N. rewrite put_else by exact N. intros Hu. right. exists j. split; [exact N|]. left. eapply run_pending; [exact H1|exact Hu].
    - rewrite put_here. split; [reflexivity|]. intros f0. left. destruct f0; cbn; auto 10. }
  assert (I3 : during_inv i now ts s3).
  { eapply during_run; [left; reflexivity|exact H3|exact Nb| |exact I2]. intros j u N Hin. right. exists j. split; [exact N|now right]. }
  apply (run_snoc s3 [] _ s4) in H4 as (s3' & A & H4). apply run_nil in A as ->.
  inversion H4; subst. destruct I3 as [_ I3]. cbn [t_at] in I3. match goal with H : f i = _ |- _ => rewrite H in I3 end. destruct I3 as [-> I3].
  exists got. split; [|reflexivity]. intros g. destruct (I3 g) as [_ [[]|I4]]. exact I4.
Qed.
Lemma same_second c ls s i now before during x : date_run (t_init c) ls s -> call_of i now before during x ls ->
  (forall u, overlaps i before during u -> (u / 1000000 = now / 1000000)%Z) -> x = iso8601 now.
Proof.
  intros H Hc Hs. destruct (mixtures _ _ _ _ _ _ _ _ H Hc) as (d & Hd & ->). rewrite <- stamp_gm. apply stamp_ext. intros f.
  destruct (Hd f) as (u & [->|Hu] & ->); [reflexivity|]. now rewrite (gm_second u now (Hs u Hu)).
Qed.
