(** Proofs about create_directory (C53). *)
From Verif Require Import Base BaseFacts Json JsonText Utf8 Message Host Logger HostSpec HostProofs.

Lemma split_app a b : forall acc, split_slash (a +++ "/" +++ b) acc = split_slash a acc ++ split_slash b "".
Proof.
  induction a as [|c a IH]; intros acc; cbn [append split_slash]; [reflexivity|].
  destruct (Ascii.eqb c "/"); [cbn; f_equal; apply IH|apply IH].
Qed.
Lemma split_free s : nochar "/" s -> forall acc, split_slash s acc = [acc +++ s].
Proof.
  induction s as [|c s IH]; intros N acc; cbn; [now rewrite sapp_nil_r|].
  apply nochar_cons in N as (Nc & N). destruct (Ascii.eqb_spec c "/"); [congruence|]. rewrite IH by auto. now rewrite sapp_assoc.
Qed.
Lemma components_app a b : components (a +++ "/" +++ b) = components a ++ components b.
Proof. unfold components. rewrite split_app. apply filter_app. Qed.
Lemma components_free s : nochar "/" s -> components s = if String.eqb s "" then [] else [s].
Proof. intros N. unfold components. rewrite split_free by auto. cbn. destruct (String.eqb s ""); reflexivity. Qed.
Lemma rfind_some s n : rfind_slash s = Some n -> exists b, s = stake n s +++ "/" +++ b /\ nochar "/" b /\ slen (stake n s) = n.
Proof.
  revert n. induction s as [|c s IH]; intros n; cbn [rfind_slash]; [discriminate|].
  assert (rfind_slash s = None -> nochar "/" s) as X.
  { clear. induction s as [|c s IH]; cbn; intros H; [intros [|x a] b; discriminate|].
    destruct (rfind_slash s); [discriminate|]. destruct (Ascii.eqb_spec c "/"); [discriminate|]. apply nochar_cons. split; auto. }
  destruct (rfind_slash s) as [k|].
  - intros [= <-]. destruct (IH k eq_refl) as (b & E & N & L). exists b. cbn. split; [f_equal; exact E|]. split; auto.
  - destruct (Ascii.eqb_spec c "/") as [->|]; [|discriminate]. intros [= <-]. exists s. cbn. auto.
Qed.
Lemma rfind_none s : rfind_slash s = None -> nochar "/" s.
Proof.
  induction s as [|c s IH]; cbn; intros H; [intros [|x a] b; discriminate|].
  destruct (rfind_slash s); [discriminate|]. destruct (Ascii.eqb_spec c "/"); [discriminate|]. apply nochar_cons. split; auto.
Qed.
(** The specification of the pieces of a path. *)
Lemma names_components s p : names s p -> components s = p.
Proof.
  induction 1 as [|s N F|a b p F H IH]; [reflexivity| |].
  - rewrite components_free; [|intros x y E; apply (F x y); exact E]. apply String.eqb_neq in N. now rewrite N.
  - rewrite components_app, IH, components_free; [|intros x y E; apply (F x y); exact E]. destruct (String.eqb a ""); reflexivity.
Qed.
Lemma first_slash s : nochar "/" s \/ exists a b, s = a +++ "/" +++ b /\ nochar "/" a.
Proof.
  induction s as [|c s IH]; [left; intros [|x a] b; discriminate|].
  destruct (Ascii.eqb_spec "/" c) as [<-|N]; [right; exists "", s; split; auto; intros [|x a] b; discriminate|].
  destruct IH as [IH|(a & b & -> & IH)]; [left; now apply nochar_cons|].
  right. exists (String c a), b. split; auto. now apply nochar_cons.
Qed.
Lemma names_total s : exists p, names s p.
Proof.
  remember (slen s) as n eqn:E. revert s E. induction n as [n IH] using lt_wf_ind. intros s ->.
  destruct (first_slash s) as [F|(a & b & -> & F)].
  - destruct (string_dec s "") as [->|N]; [exists []; constructor|]. exists [s]. constructor; auto.
  - destruct (IH (slen b)) with (s := b) as (p & P); auto. { rewrite slen_app. cbn. lia. }
    eexists. apply names_slash; eauto.
Qed.

(** Nothing is lost, only directories on the way are added. *)
Definition grown (path : string) (t t' : tree) : Prop :=
  t_may t' = t_may t /\ forall q, t_at t' q = t_at t q \/
    (t_at t q = None /\ t_at t' q = Some NDir /\ q <> [] /\ exists r, components path = q ++ r).
Lemma grown_refl path t : grown path t t.
Proof. split; auto. Qed.
Lemma mkdir_grown t path : t_at t [] = Some NDir -> grown path t (fst (mkdir t path)).
Proof.
  intros R. unfold mkdir. destruct (t_at t (components path)) eqn:E; [apply grown_refl|].
  destruct (t_at t (removelast _)) as [[]|]; try apply grown_refl. destruct (_ && _); [|apply grown_refl].
  split; auto. intros q. cbn. destruct (list_eq_dec string_dec q (components path)) as [->|]; auto.
  right. split; auto. split; auto. split; [congruence|]. exists []. now rewrite app_nil_r.
Qed.
Lemma create_grown n : forall path t, t_at t [] = Some NDir -> grown path t (fst (create_directory_fuel n path t)).
Proof.
  induction n as [|n IH]; intros path t R; cbn [create_directory_fuel]; [apply grown_refl|].
  set (t1 := match rfind_slash path with Some (S k) => _ | _ => t end).
  assert (grown path t t1) as G1.
  { subst t1. destruct (rfind_slash path) as [[|k]|] eqn:E; try apply grown_refl.
    destruct (rfind_some _ _ E) as (b & Eb & _ & _). destruct (IH (stake (S k) path) t R) as (M & G). split; auto.
    intros q. destruct (G q) as [|(A & B & C & r & D)]; auto. right. repeat split; auto.
    exists (r ++ components b). rewrite Eb, components_app, D. now rewrite app_assoc. }
  assert (t_at t1 [] = Some NDir) as R1. { destruct G1 as (_ & G). destruct (G []) as [->|(? & _)]; congruence. }
  destruct (stat_ok t1 path); auto.
  destruct (mkdir_grown t1 path R1) as (M2 & G2). destruct G1 as (M1 & G1). split; [congruence|].
  intros q. destruct (G2 q) as [->|(A & B & C & D)]; auto. right. repeat split; auto.
  destruct (G1 q) as [<-|(? & E & _)]; congruence.
Qed.
(** True exactly when the path exists afterwards. *)
Lemma create_stat n path t : 0 < n -> snd (create_directory_fuel n path t) = stat_ok (fst (create_directory_fuel n path t)) path.
Proof.
  intros H. destruct n as [|n]; [lia|]. cbn [create_directory_fuel]. set (t1 := match rfind_slash path with Some (S k) => _ | _ => t end).
  destruct (stat_ok t1 path) eqn:E; auto. unfold mkdir.
  destruct (t_at t1 (components path)) eqn:A; [cbn; now rewrite E|]. destruct (t_at t1 (removelast _)) as [[]|]; try (cbn; now rewrite E).
  destruct (negb (String.eqb path "") && _) eqn:B; [|cbn; now rewrite E]. apply andb_true_iff in B as [B _].
  cbn. unfold stat_ok. rewrite B. cbn. destruct (list_eq_dec string_dec (components path) (components path)); congruence.
Qed.
(** The result is a tree. *)
Lemma mkdir_tree t path : is_tree t -> is_tree (fst (mkdir t path)).
Proof.
  intros (R & C). unfold mkdir. destruct (t_at t (components path)) eqn:E; [split; auto|].
  destruct (t_at t (removelast _)) as [[]|] eqn:P; try (split; auto; fail). destruct (_ && _); [|split; auto].
  split; cbn [t_at fst].
  - destruct (list_eq_dec string_dec [] (components path)) as [X|]; auto.
  - intros p x. destruct (list_eq_dec string_dec (p ++ [x]) (components path)) as [X|X].
    + intros _. destruct (list_eq_dec string_dec p (components path)) as [|Y]; auto. rewrite <- X, removelast_last in P. exact P.
    + intros H. destruct (list_eq_dec string_dec p (components path)) as [Y|Y]; auto. eapply C; eauto.
Qed.
Lemma create_tree n : forall path t, is_tree t -> is_tree (fst (create_directory_fuel n path t)).
Proof.
  induction n as [|n IH]; intros path t T; cbn [create_directory_fuel]; auto.
  set (t1 := match rfind_slash path with Some (S k) => _ | _ => t end).
  assert (is_tree t1) by (subst t1; destruct (rfind_slash path) as [[|k]|]; auto).
  destruct (stat_ok t1 path); auto. now apply mkdir_tree.
Qed.
(** Success. *)
Lemma last_step t path q x : components path = q ++ [x] -> path <> "" -> t_at t q = Some NDir ->
  t_at t (q ++ [x]) <> Some NFile -> (t_at t (q ++ [x]) = None -> t_may t q = true) -> 
  let r := if stat_ok t path then (t, true) else mkdir t path in snd r = true /\ t_at (fst r) (q ++ [x]) = Some NDir.
Proof.
  intros C N D F M r. subst r. unfold stat_ok, mkdir. rewrite C, removelast_last, D. apply String.eqb_neq in N. rewrite N. cbn [negb andb].
  destruct (t_at t (q ++ [x])) as [[]|] eqn:E; [congruence|cbn; auto|]. rewrite M by auto. cbn.
  destruct (list_eq_dec string_dec (q ++ [x]) (q ++ [x])); [auto|congruence].
Qed.
Lemma create_ok n : forall path t, slen path < n -> path <> "" -> is_tree t ->
  (forall q r, components path = q ++ r -> t_at t q <> Some NFile) ->
  (forall q x r, components path = q ++ x :: r -> t_at t (q ++ [x]) = None -> t_may t q = true) ->
  snd (create_directory_fuel n path t) = true /\ t_at (fst (create_directory_fuel n path t)) (components path) = Some NDir.
Proof.
  induction n as [|n IH]; intros path t L N T F M; [lia|]. cbn [create_directory_fuel].
  destruct T as (R & TC).
  destruct (rfind_slash path) as [[|k]|] eqn:E.
  - destruct (rfind_some _ _ E) as (b & Eb & Nb & _). cbn [stake append] in Eb.
    assert (components path = components b) as Ec. { rewrite Eb. change (String "/" b) with ("" +++ "/" +++ b). rewrite components_app. reflexivity. }
    rewrite (components_free b Nb) in Ec. destruct (String.eqb b "") eqn:Eb0.
    + unfold stat_ok. apply String.eqb_neq in N. rewrite N, Ec, R. cbn. auto.
    + pose proof (last_step t path [] b Ec N R) as X. cbn [app] in X. rewrite Ec. apply X.
      * apply (F [b] []). now rewrite Ec.
      * apply (M [] b []). exact Ec.
  - destruct (rfind_some _ _ E) as (b & Eb & Nb & La). set (a := stake (S k) path) in *.
    assert (components path = components a ++ components b) as Ec by (rewrite Eb; apply components_app).
    destruct (IH a t) as (_ & Da); auto.
    { pose proof (f_equal slen Eb) as LL. rewrite !slen_app in LL. change (slen "/") with 1 in LL. lia. } { intros X. rewrite X in La. discriminate. } { split; auto. }
    { intros q r Q. apply (F q (r ++ components b)). rewrite Ec, Q. now rewrite app_assoc. }
    { intros q x r Q. apply (M q x (r ++ components b)). rewrite Ec, Q. now rewrite <- app_assoc. }
    destruct (create_grown n a t R) as (Gm & G). set (t1 := fst (create_directory_fuel n a t)) in *.
    rewrite (components_free b Nb) in Ec. destruct (String.eqb b "") eqn:Eb0.
    + rewrite app_nil_r in Ec. unfold stat_ok. apply String.eqb_neq in N. rewrite N, Ec, Da. cbn. auto.
    + rewrite Ec. apply last_step; auto.
      * destruct (G (components a ++ [b])) as [->|(_ & -> & _)]; [|discriminate]. apply (F _ []). now rewrite app_nil_r.
      * intros X. rewrite Gm. apply (M _ b []); auto. destruct (G (components a ++ [b])) as [Y|(_ & Y & _)]; congruence.
  - apply rfind_none in E. assert (components path = [path]) as Ec. { rewrite components_free by auto. apply String.eqb_neq in N. now rewrite N. }
    rewrite Ec. apply (last_step t path [] path); auto.
    + apply (F _ []). now rewrite Ec.
    + apply (M [] path []). exact Ec.
Qed.
