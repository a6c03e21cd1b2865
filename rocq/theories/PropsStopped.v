(** Data races on the stopped threads of the debugger: C100. *)
From Verif Require Import Base BaseFacts Debugger Stopped.

(** A thread that is about to use the set. *)
Definition uses (s : bench) (t : holder) : Prop :=
  match t with
  | ByDebugger => s_at s = Reading \/ s_at s = Clearing
  | ByClient i => exists c m, nth_error (s_clients s) i = Some c /\ l_at c = Holds m
  end.
(** Two threads at once: all but debugInfo write. *)
Definition race (s : bench) : Prop := exists t1 t2, t1 <> t2 /\ uses s t1 /\ uses s t2.

(** An adapter that says nothing about threads after its response to "disconnect". *)
Definition no_late (q : list amsg) : Prop := forall u v, q = (u ++ Response true :: v)%list -> forall m, In m v -> uses_set m = false.
Definition any_queue (q : list amsg) : Prop := True.

Lemma nth_replace (l : list client) i c j : i < List.length l ->
  nth_error (firstn i l ++ c :: skipn (S i) l) j = if Nat.eqb j i then Some c else nth_error l j.
Proof.
  revert i j. induction l as [|a l IH]; intros [|i] [|j] L; cbn in *; try lia; auto. rewrite IH by lia. reflexivity.
Qed.
Lemma nth_last {A} (cs : list A) c c' i x : nth_error (cs ++ [c]) i = Some x -> nth_error (cs ++ [c']) i = Some x \/ (i = List.length cs /\ x = c).
Proof.
  intros H. destruct (Nat.lt_ge_cases i (List.length cs)) as [L|L].
  - left. rewrite nth_error_app1 in * by auto. exact H.
  - right. rewrite nth_error_app2 in H by auto. destruct (i - List.length cs) as [|[|k]] eqn:E; cbn in H; try discriminate. injection H as <-. split; auto. lia.
Qed.
(** Every client that holds the mutex is known to the mutex. *)
Definition locked (s : bench) : Prop :=
  (s_at s = Reading -> s_lock s = Some ByDebugger) /\
  (forall i c m, nth_error (s_clients s) i = Some c -> l_at c = Holds m -> s_lock s = Some (ByClient i)).

Section Inv.
  Context (joins honest : bool) (proper : list amsg -> Prop).
  Lemma locked_step s s' : locked s -> bmove joins honest proper s s' -> locked s'.
  Proof.
    intros (L1 & L2) M. destruct M as [s' M|i c s' N M].
    - destruct M; unfold locked, at_point, took, with_clients; cbn [s_at s_lock s_clients]; (split; [try discriminate; auto; try congruence|]); auto.
      + intros i c m N A. pose proof (L2 i c m N A). congruence.
      + intros i c m N A. pose proof (L2 i c m N A). rewrite (L1 H) in H0. discriminate.
      + intros i c m N A. destruct (nth_error_None (s_clients s) i) as [_ X]. destruct (Nat.lt_ge_cases i (List.length (s_clients s))) as [G|G].
        * rewrite nth_error_app1 in N by auto. eauto.
        * rewrite nth_error_app2 in N by auto. destruct (i - List.length (s_clients s)) as [|[|k]]; cbn in N; try discriminate. injection N as <-. discriminate.
      + intros i c' m N A. rewrite H3 in L2. apply (nth_last cs _ c) in N as [N|(-> & ->)]; [eauto|]. apply (L2 _ c m); auto. rewrite nth_error_app2, Nat.sub_diag; auto.
      + intros i c' m N A. rewrite H2 in L2. apply (nth_last cs _ c) in N as [N|(-> & ->)]; [eauto|]. apply (L2 _ c m); auto. rewrite nth_error_app2, Nat.sub_diag; auto.
      + destruct d; discriminate.
      + intros i c' m N A. rewrite H0 in L2. apply (nth_last cs _ c) in N as [N|(-> & ->)]; [eauto|]. apply (L2 _ c m); auto. rewrite nth_error_app2, Nat.sub_diag; auto.
    - assert (i < List.length (s_clients s)) as Li by (apply nth_error_Some; congruence).
      assert (s_at s = s_at s' /\ (s_lock s' = s_lock s \/ (s_lock s = None /\ s_lock s' = Some (ByClient i)) \/ (s_lock s = Some (ByClient i) /\ s_lock s' = None))) as (A1 & A2)
        by (destruct M; cbn; split; auto; right; right; eauto).
      split; [intros R; pose proof (L1 ltac:(congruence)); destruct A2 as [A2|[(A2 & _)|(A2 & _)]]; congruence|].
      destruct M; unfold replace, with_clients; cbn [s_at s_lock s_clients]; intros j c' m' N'; rewrite nth_replace in N' by auto; destruct (Nat.eqb_spec j i) as [->|Ne];
        try (injection N' as <-; cbn; discriminate); try (intros A; now apply (L2 _ _ _ N' A)); auto.
      + intros A. pose proof (L2 _ _ _ N' A). congruence.
      + intros A. pose proof (L2 _ _ _ N' A) as X. pose proof (L2 _ _ _ N H) as Y. congruence.
  Qed.
  Lemma locked_runs todo s : bruns joins honest proper (bench0 todo) s -> locked s.
  Proof. induction 1; [|eauto using locked_step]. split; cbn; [discriminate|]. intros [|]; discriminate. Qed.
End Inv.

Lemma replaced (l : list client) i c : nth_error l i = Some c -> exists l1 l2, l = (l1 ++ c :: l2)%list /\ forall c', (firstn i l ++ c' :: skipn (S i) l)%list = (l1 ++ c' :: l2)%list.
Proof.
  intros N. destruct (nth_error_split _ _ N) as (l1 & l2 & -> & <-). exists l1, l2. split; auto. intros c'.
  rewrite firstn_app, firstn_all, Nat.sub_diag. cbn [firstn]. rewrite app_nil_r. f_equal. f_equal.
  rewrite skipn_app, skipn_all2 by lia. replace (S (List.length l1) - List.length l1) with 1 by lia. reflexivity.
Qed.

(** With a [stop()] that waits for the threads. *)
Definition joined (s : bench) : Prop :=
  (forall c, In c (s_clients s) -> l_gone c = true -> l_at c = Loop /\ l_queue c = []) /\ (s_at s = Clearing -> forall c, In c (s_clients s) -> l_gone c = true).
Lemma joined_step honest proper s s' : joined s -> bmove true honest proper s s' -> joined s'.
Proof.
  intros (J1 & J2) M. destruct M as [s' M|i c s' N M].
  - destruct M; unfold joined, at_point, took, with_clients; cbn [s_at s_clients]; (split; [|try discriminate; auto]); auto.
    + intros c I G. apply in_app_or in I as [I|[<-|[]]]; auto.
    + intros c' I G. rewrite H3 in J1. apply in_app_or in I as [I|[<-|[]]]; [apply J1; auto; apply in_or_app; auto|]. apply (J1 c); [apply in_or_app; cbn; auto|exact G].
    + intros c' I G. rewrite H2 in J1. apply in_app_or in I as [I|[<-|[]]]; [apply J1; auto; apply in_or_app; auto|]. apply (J1 c); [apply in_or_app; cbn; auto|exact G].
    + intros c' I G. rewrite H0 in J1. apply in_app_or in I as [I|[<-|[]]]; [apply J1; auto; apply in_or_app; auto|]. apply (J1 c); [apply in_or_app; cbn; auto|exact G].
    + destruct d; discriminate.
  - destruct (replaced _ _ _ N) as (l1 & l2 & E & R). assert (In c (s_clients s)) as Ic by (rewrite E; apply in_or_app; cbn; auto).
    assert (l_gone c = false) as G.
    { destruct (l_gone c) eqn:G; auto. destruct (J1 c Ic G) as (A & Q). destruct M; congruence. }
    assert (exists c', s_clients s' = (l1 ++ c' :: l2)%list /\ (l_gone c' = true -> l_at c' = Loop /\ l_queue c' = []) /\ s_at s' = s_at s) as (c' & E' & G' & At).
    { destruct M; cbn [s_clients replace with_clients s_at]; rewrite R; eexists; (split; [reflexivity|]); (split; [cbn; try congruence; auto|reflexivity]). }
    split.
    + intros x I. rewrite E' in I. apply in_app_or in I as [I|[<-|I]]; auto; apply J1; rewrite E; apply in_or_app; cbn; auto.
    + rewrite At. intros Cl. pose proof (J2 Cl c Ic). congruence.
Qed.

(** C100. Two threads never use the set at once: if [stop()] waits for the thread of the client. *)
Theorem C100_joined : forall honest proper todo s, bruns true honest proper (bench0 todo) s -> ~ race s.
Proof.
  intros honest proper todo s R.
  assert (joined s) as (J1 & J2) by (induction R; [split; cbn; [intros ? []|discriminate]|eauto using joined_step]).
  pose proof (locked_runs _ _ _ _ _ R) as (L1 & L2).
  assert (forall i, uses s ByDebugger -> ~ uses s (ByClient i)) as K.
  { intros i [U|U] (c & m & N & A); [pose proof (L2 _ _ _ N A); rewrite L1 in H; auto; discriminate|].
    apply nth_error_In in N. destruct (J1 c N (J2 U c N)). congruence. }
  intros ([|i] & [|j] & Ne & U1 & U2); try (now apply Ne); [now apply (K j)|now apply (K i)|].
  destruct U1 as (c & m & N & A), U2 as (c' & m' & N' & A'). apply (L2 _ _ _ N) in A. apply (L2 _ _ _ N') in A'. congruence.
Qed.
Print Assumptions C100_joined.

(** With an adapter that answers every request and then, after "disconnect", says nothing about threads. *)
Definition calm (c : client) : Prop := l_at c = Loop /\ forall m, In m (l_queue c) -> uses_set m = false.
Definition good (c : client) : Prop := (l_stop c = true -> calm c) /\ no_late (l_queue c) /\ (l_gone c = true -> l_stop c = true).
Definition link (p : cpoint) (c : client) : Prop :=
  match p with
  | Waiting d => (l_pending c = Some d /\ l_answer c = false) \/ (l_pending c = None /\ l_answer c = true /\ (d = true -> l_stop c = true))
  | _ => l_pending c = None /\ l_answer c = false
  end.
Definition over (s : bench) : Prop := s_started s = false \/ s_at s = Stopping \/ s_at s = Clearing.
Definition kept (s : bench) : Prop :=
  (s_started s = false -> s_set s = []) /\
  ((s_clients s = [] /\ s_started s = false /\ match s_at s with Waiting _ => False | _ => True end) \/
   exists cs c, s_clients s = (cs ++ [c])%list /\ (forall o, In o cs -> good o /\ l_stop o = true) /\ good c /\ link (s_at s) c /\ (over s -> l_stop c = true)).
Lemma no_late_tail m q : no_late (m :: q) -> no_late q.
Proof. intros N u v ->. apply (N (m :: u) v). reflexivity. Qed.
Lemma no_late_nil : no_late [].
Proof. intros [|] v; discriminate. Qed.

(** A client that moves stays good; one that was to stop does not touch the set. *)
Lemma client_good joins i s c s' : good c -> nth_error (s_clients s) i = Some c -> lmove true no_late i s c s' ->
  exists l1 l2 c', s_clients s = (l1 ++ c :: l2)%list /\ s_clients s' = (l1 ++ c' :: l2)%list /\ good c' /\ s_at s' = s_at s /\ s_started s' = s_started s /\
    (l_stop c = true -> l_stop c' = true /\ s_set s' = s_set s) /\ (forall p, link p c -> link p c') /\ joins = joins :> bool.
Proof.
  intros (G1 & G2 & G3) N M. destruct (replaced _ _ _ N) as (l1 & l2 & E & R).
  destruct M; cbn [s_clients replace with_clients s_at s_started s_set]; rewrite R; eexists l1, l2, _; (split; [exact E|split; [reflexivity|]]); unfold good, calm; cbn.
  - split; [split; [discriminate|split; [auto|discriminate]]|]. repeat split; try congruence. intros p. destruct p; cbn; auto. intros [X|(X1 & X2 & X3)]; auto. right. repeat split; auto. intros D. rewrite H1 in X3. auto.
  - rewrite H0 in *. split; [split; [|split; [eauto using no_late_tail|auto]]|].
    + intros St. destruct (G1 St) as (_ & U). exfalso. rewrite (U m) in H1; [discriminate|]. rewrite H0. cbn. auto.
    + repeat split; auto.
  - rewrite H0 in *. split; [split; [|split; [eauto using no_late_tail|auto]]|repeat split; auto].
    intros St. destruct (G1 St) as (_ & U). split; auto. intros m I. apply U. rewrite H0. cbn. auto.
  - rewrite H0 in *. specialize (H2 eq_refl). subst d'. split; [split; [|split; [eauto using no_late_tail|intros X; rewrite (G3 X); reflexivity]]|].
    + intros St. split; auto. intros m I. destruct (l_stop c) eqn:Sc; [apply (proj2 (G1 eq_refl)); rewrite H0; cbn; auto|]. cbn in St. subst d. apply (G2 [] q eq_refl m I).
    + split; [auto|]. split; [auto|]. split; [intros X; rewrite X; auto|]. split; [|auto]. intros p. destruct p; cbn; try (rewrite H1; intros [X _]; discriminate).
      rewrite H1. intros [(X & _)|(X & _)]; [injection X as ->|discriminate]. right. repeat split; auto. intros ->. now rewrite orb_true_r.
  - split; [split; [|split; auto]|repeat split; auto]. intros St. destruct (G1 St). congruence.
  - split; [split; [|split; auto]|]; [intros St; destruct (G1 St); congruence|]. split; [auto|]. split; [auto|]. split; [intros St; destruct (G1 St); congruence|]. auto.
  - split; [split; [|split; [exact no_late_nil|auto]]|]; [intros _; split; auto; intros m []|]. split; [auto|]. split; [auto|]. split; [auto|]. split; auto.
    intros p. destruct p; cbn; auto. intros [X|(X1 & X2 & X3)]; auto.
Qed.

Lemma kept_step joins s s' : kept s -> bmove joins true no_late s s' -> kept s'.
Proof.
  intros (K1 & K2) M. destruct M as [s' M|i c s' N M].
  - assert (forall cs c cs' c', (cs ++ [c] = cs' ++ [c'])%list -> cs = cs' /\ c = c' :> client) as Inj by (intros; apply app_inj_tail; auto).
    destruct M; unfold kept, over, at_point, took, with_clients; cbn [s_at s_clients s_started s_set]; rewrite ?H in *; split; auto; try discriminate.
    all: try (destruct K2 as [K2|(cs' & c' & E & O & G & L & St)];
      [left; tauto|right; exists cs', c'; unfold over in St; rewrite ?H in *; (split; [exact E|split; [exact O|split; [exact G|split; [exact L|intros X; apply St; intuition discriminate]]]])]).
    + right. exists (s_clients s), (ask false fresh_client). split; [reflexivity|]. split; [|split; [split; [discriminate|split; [exact no_late_nil|discriminate]]|split; [left; auto|intuition discriminate]]].
      intros o I. destruct K2 as [(K2 & _)|(cs' & c' & E & O & G & L & St)]; [rewrite K2 in I; destruct I|]. rewrite E in I. apply in_app_or in I as [I|[<-|[]]]; auto. split; auto. apply St. left. auto.
    + right. destruct K2 as [(K2 & _)|(cs' & c' & E & O & G & L & St)]; [rewrite K2 in H3; now destruct cs|]. rewrite H3 in E. apply Inj in E as (<- & <-). rewrite ?H in L.
      exists cs, (ask false c). split; [reflexivity|]. split; [exact O|]. split; [exact G|]. split; [left; split; [reflexivity|apply L]|]. rewrite H2. intuition discriminate.
    + right. destruct K2 as [(K2 & _)|(cs' & c' & E & O & G & L & St)]; [rewrite K2 in H2; now destruct cs|]. rewrite H2 in E. apply Inj in E as (<- & <-). rewrite ?H in L.
      exists cs, (ask true c). split; [reflexivity|]. split; [exact O|]. split; [exact G|]. split; [left; split; [reflexivity|apply L]|]. rewrite H1. intuition discriminate.
    + right. destruct K2 as [(K2 & _)|(cs' & c' & E & O & G & L & St)]; [rewrite K2 in H0; now destruct cs|]. rewrite H0 in E. apply Inj in E as (<- & <-). rewrite ?H in L.
      cbn in L. destruct L as [(_ & L)|(L1 & _ & L2)]; [congruence|]. exists cs, (answered c). split; [reflexivity|]. split; [exact O|]. split; [exact G|].
      split; [destruct d; split; auto|]. unfold over in St. cbn. intros X. destruct d; [auto|]. apply St. left. intuition discriminate.
  - destruct K2 as [(K2 & _)|(cs & z & E & O & G & L & St)]; [rewrite K2 in N; destruct i; discriminate|].
    assert (good c) as Gc. { assert (In c (s_clients s)) as I by (eapply nth_error_In; eauto). rewrite E in I. apply in_app_or in I as [I|[<-|[]]]; auto. apply O, I. }
    destruct (client_good joins i s c s' Gc N M) as (l1 & l2 & c' & E1 & E2 & G' & A1 & A2 & A3 & A4 & _).
    rewrite E in E1. unfold kept, over. rewrite A1, A2, E2.
    assert (l2 = [] \/ exists l2' y, l2 = (l2' ++ [y])%list) as [->|(l2' & y & ->)]
      by (clear; induction l2 using rev_ind; eauto).
    + apply app_inj_tail in E1 as (<- & ->). split.
      * intros X. destruct (A3 (St (or_introl X))) as (_ & ->). auto.
      * right. exists cs, c'. split; [auto|split; [auto|split; [auto|split; [auto|]]]]. intros X. apply A3. auto.
    + rewrite app_comm_cons, app_assoc in E1. apply app_inj_tail in E1 as (-> & ->).
      assert (l_stop c = true) as Sc by (apply O; apply in_or_app; cbn; auto). destruct (A3 Sc) as (Sc' & Q). split; [rewrite Q; auto|].
      right. exists (l1 ++ c' :: l2')%list, y. split; [now rewrite app_comm_cons, app_assoc|]. split; [|split; [auto|split; auto]].
      intros o I. apply in_app_or in I as [I|[<-|I]]; [apply O; apply in_or_app; auto|auto|apply O; apply in_or_app; cbn; auto].
Qed.
Lemma kept_runs joins todo s : bruns joins true no_late (bench0 todo) s -> kept s.
Proof. induction 1; [|eauto using kept_step]. split; auto. left. cbn. auto. Qed.

(** C100. ... and also if the adapter answers every request and says nothing about threads after its response to "disconnect". Then no
    thread of an old session is left in the set either. *)
Theorem C100_honest : forall joins todo s, bruns joins true no_late (bench0 todo) s -> ~ race s /\ (s_started s = false -> s_set s = []).
Proof.
  intros joins todo s R. pose proof (locked_runs _ _ _ _ _ R) as (L1 & L2). pose proof (kept_runs _ _ _ R) as (K1 & K2). split; [|exact K1].
  assert (forall i, uses s ByDebugger -> ~ uses s (ByClient i)) as K.
  { intros i [U|U] (c & m & N & A); [pose proof (L2 _ _ _ N A); rewrite L1 in H; auto; discriminate|].
    destruct K2 as [(K2 & _)|(cs & z & E & O & G & L & St)]; [rewrite K2 in N; destruct i; discriminate|].
    assert (good c /\ l_stop c = true) as ((G1 & _) & Sc).
    { apply nth_error_In in N. rewrite E in N. apply in_app_or in N as [N|[<-|[]]]; auto. split; auto. apply St. unfold over. auto. }
    destruct (G1 Sc) as (X & _). congruence. }
  intros ([|i] & [|j] & Ne & U1 & U2); try (now apply Ne); [now apply (K j)|now apply (K i)|].
  destruct U1 as (c & m & N & A), U2 as (c' & m' & N' & A'). apply (L2 _ _ _ N) in A. apply (L2 _ _ _ N') in A'. congruence.
Qed.
Print Assumptions C100_honest.
(** C100. Whatever the adapter does, debugInfo and the events do not disturb each other. *)
Theorem C100_locked : forall joins honest proper todo s, bruns joins honest proper (bench0 todo) s -> s_at s <> Clearing -> ~ race s.
Proof.
  intros joins honest proper todo s R Nc. pose proof (locked_runs _ _ _ _ _ R) as (L1 & L2).
  assert (forall i, uses s ByDebugger -> ~ uses s (ByClient i)) as K
    by (intros i [U|U] (c & m & N & A); [pose proof (L2 _ _ _ N A); rewrite L1 in H; auto; discriminate|contradiction]).
  intros ([|i] & [|j] & Ne & U1 & U2); try (now apply Ne); [now apply (K j)|now apply (K i)|].
  destruct U1 as (c & m & N & A), U2 as (c' & m' & N' & A'). apply (L2 _ _ _ N) in A. apply (L2 _ _ _ N') in A'. congruence.
Qed.
Print Assumptions C100_locked.

(** Only a thread in its critical section holds the mutex. *)
Definition held (s : bench) : Prop :=
  match s_lock s with
  | None => True
  | Some ByDebugger => s_at s = Reading
  | Some (ByClient i) => exists c m, nth_error (s_clients s) i = Some c /\ l_at c = Holds m
  end.
Lemma held_last cs c c' i m : l_at c' = l_at c -> (exists x, nth_error (cs ++ [c]) i = Some x /\ l_at x = Holds m) ->
  exists x, nth_error (cs ++ [c']) i = Some x /\ l_at x = Holds m.
Proof. intros E (x & N & A). apply (nth_last cs c c') in N as [N|(-> & ->)]; [eauto|]. exists c'. rewrite nth_error_app2, Nat.sub_diag by auto. split; auto. congruence. Qed.
Lemma held_step joins honest proper s s' : held s -> bmove joins honest proper s s' -> held s'.
Proof.
  intros Hd M. destruct M as [s' M|i c s' N M].
  - destruct M; unfold held, at_point, took, with_clients in *; cbn [s_at s_lock s_clients] in *; auto;
      (destruct (s_lock s) as [[|j]|] eqn:L; [try congruence| |exact I]); auto.
    + destruct Hd as (c & m & N & A). exists c, m. split; auto. rewrite nth_error_app1; auto. apply nth_error_Some. congruence.
    + destruct Hd as (c' & m & N & A). rewrite H3 in N. destruct (held_last cs c (ask false c) j m eq_refl) as (x & X); eauto.
    + destruct Hd as (c' & m & N & A). rewrite H2 in N. destruct (held_last cs c (ask true c) j m eq_refl) as (x & X); eauto.
    + destruct Hd as (c' & m & N & A). rewrite H0 in N. destruct (held_last cs c (answered c) j m eq_refl) as (x & X); eauto.
  - assert (i < List.length (s_clients s)) as Li by (apply nth_error_Some; congruence).
    destruct M; unfold held, replace, with_clients in *; cbn [s_at s_lock s_clients] in *; auto;
      try (destruct (s_lock s) as [[|j]|] eqn:L; [exact Hd| |exact I]; destruct Hd as (c' & m' & N' & A'); exists c', m'; rewrite nth_replace by auto;
           destruct (Nat.eqb_spec j i) as [->|]; [congruence|auto]; fail).
    eexists _, m. rewrite nth_replace, Nat.eqb_refl by auto. split; [reflexivity|reflexivity].
Qed.
(** C100. Nobody waits for the mutex in vain: whoever holds it is about to release it. *)
Theorem C100_released : forall joins honest proper todo s, bruns joins honest proper (bench0 todo) s -> s_lock s <> None ->
  exists s', bmove joins honest proper s s' /\ s_lock s' = None.
Proof.
  intros joins honest proper todo s R Ln. assert (held s) as Hd by (clear Ln; induction R; [exact I|apply (held_step joins honest proper s1); auto]).
  unfold held in Hd. destruct (s_lock s) as [[|i]|]; [| |congruence].
  - eexists. split; [apply B_debugger, M_read, Hd|reflexivity].
  - destruct Hd as (c & m & N & A). eexists. split; [eapply B_client, L_apply; eauto|reflexivity].
Qed.
Print Assumptions C100_released.

Section Chain.
  Context (joins honest : bool) (proper : list amsg -> Prop).
  Lemma bruns_cons s s1 s2 : bmove joins honest proper s s1 -> bruns joins honest proper s1 s2 -> bruns joins honest proper s s2.
  Proof. intros M R. revert M. induction R; intros M; [eapply BR_step; [apply BR_refl|exact M]|]. eapply BR_step; eauto. Qed.
End Chain.
Ltac debugger rule := eapply bruns_cons; [apply B_debugger; eapply rule; cbn; try reflexivity; try discriminate; eauto|cbn].
Ltac client0 rule := eapply bruns_cons; [eapply (B_client _ _ _ _ 0); [reflexivity|eapply rule; cbn; try reflexivity; try discriminate; eauto]|cbn].
Ltac reads x := eapply bruns_cons; [eapply (B_client _ _ _ _ 0); [reflexivity|eapply L_read with (q := x); cbn; try reflexivity; try discriminate; eauto]|cbn].
Lemma last1 {A} (a : A) : [a] = ([] ++ [a])%list.
Proof. reflexivity. Qed.
Lemma proper1 : no_late [Response false].
Proof. intros [|x [|]] v E; try discriminate. Qed.
Lemma proper2 : no_late [StoppedAt 1; Response true; Event].
Proof. intros u v E m I. destruct u as [|a [|b [|c [|d u]]]]; cbn in E; try discriminate. assert (v = [Event]) as -> by congruence. destruct I as [<-|[]]. reflexivity. Qed.

(** A session with a stopped thread, up to the point where the set is cleared while the client's thread has not ended. *)
Example C100_honest_ex : exists s c, bruns false true no_late (bench0 [Initialize; Info; Disconnect]) s /\
  s_at s = Clearing /\ s_set s = [1%Z] /\ s_started s = true /\ s_clients s = [c] /\ l_gone c = false /\ l_queue c = [Event].
Proof.
  eexists _, _. split; [|cbn].
  - debugger M_start. client0 L_read; [exact proper1|]. client0 L_response. debugger M_reply; [apply last1|reflexivity|]. debugger M_info. debugger M_lock. debugger M_read.
    debugger M_disconnect; [apply last1|]. client0 L_read; [exact proper2|]. client0 L_event. client0 L_lock. client0 L_apply. client0 L_response.
    debugger M_reply; [apply last1|reflexivity|]. debugger M_stopped. apply BR_refl.
  - repeat split.
Qed.

(** C100. With an adapter that reports a thread after its response to "disconnect", and a [stop()] that does not wait, the set is cleared
    while the client's thread inserts; or the thread stays in the set although the debugger is not running. *)
Theorem C100_race_refuted : ~ (forall joins todo s, bruns joins true any_queue (bench0 todo) s -> ~ race s).
Proof.
  intros R.
  assert (exists s, bruns false true any_queue (bench0 [Initialize; Disconnect]) s /\ race s) as (s & Rs & X); [|exact (R _ _ _ Rs X)].
  eexists. split.
  - debugger M_start. reads [Response false]; try exact I. client0 L_response. debugger M_reply; [apply last1|reflexivity|].
    debugger M_disconnect; [apply last1|]. reads [Response true; StoppedAt 1]; try exact I. client0 L_response.
    debugger M_reply; [apply last1|reflexivity|]. debugger M_stopped. client0 L_event. client0 L_lock. apply BR_refl.
  - exists ByDebugger, (ByClient 0). split; [discriminate|]. split; [right; reflexivity|]. eexists _, _. split; reflexivity.
Qed.
Print Assumptions C100_race_refuted.
Theorem C100_stale_refuted : ~ (forall joins todo s, bruns joins true any_queue (bench0 todo) s -> s_started s = false -> s_set s = []).
Proof.
  intros R.
  assert (exists s, bruns false true any_queue (bench0 [Initialize; Disconnect]) s /\ s_started s = false /\ s_set s = [1%Z]) as (s & Rs & X & Y); [|pose proof (R _ _ _ Rs X); congruence].
  eexists. split.
  - debugger M_start. reads [Response false]; try exact I. client0 L_response. debugger M_reply; [apply last1|reflexivity|].
    debugger M_disconnect; [apply last1|]. reads [Response true; StoppedAt 1]; try exact I. client0 L_response.
    debugger M_reply; [apply last1|reflexivity|]. debugger M_stopped. debugger M_clear. client0 L_event. client0 L_lock. client0 L_apply. apply BR_refl.
  - split; reflexivity.
Qed.
Print Assumptions C100_stale_refuted.
(** C100. An adapter that answers "disconnect" with the response of another request leaves the client's thread running. *)
Theorem C100_dishonest_refuted : ~ (forall joins todo s, bruns joins false no_late (bench0 todo) s -> ~ race s).
Proof.
  intros R.
  assert (exists s, bruns false false no_late (bench0 [Initialize; Disconnect]) s /\ race s) as (s & Rs & X); [|exact (R _ _ _ Rs X)].
  eexists. split.
  - debugger M_start. client0 L_read; [exact proper1|]. client0 L_response. debugger M_reply; [apply last1|reflexivity|].
    debugger M_disconnect; [apply last1|]. client0 L_read; [exact proper1|]. client0 L_response.
    debugger M_reply; [apply last1|reflexivity|]. debugger M_stopped. reads [StoppedAt 1]; [intros [|? [|]] ?; discriminate|].
    client0 L_event. client0 L_lock. apply BR_refl.
  - exists ByDebugger, (ByClient 0). split; [discriminate|]. split; [right; reflexivity|]. eexists _, _. split; reflexivity.
Qed.
Print Assumptions C100_dishonest_refuted.
