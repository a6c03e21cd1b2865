(** Proofs about chains of loggers. *)
From Verif Require Import Base BaseFacts Json JsonText Auth Message Logger LoggerProofs Pretty PrettyProofs Monitor MonitorProofs Chain ChainSpec.

Lemma sink_eqb_eq a b : sink_eqb a b = true <-> a = b.
Proof. destruct a as [|x], b as [|y]; cbn; try (split; congruence). rewrite String.eqb_eq. split; congruence. Qed.
Lemma sink_eqb_refl a : sink_eqb a a = true. Proof. now apply sink_eqb_eq. Qed.
Lemma qmove_same i x f : qmove i x f i = x. Proof. unfold qmove. now rewrite Nat.eqb_refl. Qed.
Lemma qmove_other i j x f : j <> i -> qmove i x f j = f j. Proof. unfold qmove. intros H. now apply Nat.eqb_neq in H as ->. Qed.
Lemma qlock_same k o f : qlock k o f k = o. Proof. unfold qlock. now rewrite Nat.eqb_refl. Qed.
Lemma qlock_other k j o f : j <> k -> qlock k o f j = f j. Proof. unfold qlock. intros H. now apply Nat.eqb_neq in H as ->. Qed.
Lemma qsink_same x t f : qsink x t f x = t. Proof. unfold qsink. now rewrite sink_eqb_refl. Qed.
Lemma qsink_other x y t f : y <> x -> qsink x t f y = f y.
Proof. unfold qsink. intros H. destruct (sink_eqb y x) eqn:E; auto. now apply sink_eqb_eq in E. Qed.

(** A body that appends a text and ends in a way. *)
Inductive writes : code string unit -> string -> unit + exn -> Prop :=
| w_ret : writes (CRet tt) "" (inl tt)
| w_stop e : writes (CStop e) "" (inr e)
| w_step t k w r : writes k w r -> writes (CStep (fun out => out +++ t) (fun _ => k)) (t +++ w) r.
Lemma l_write_writes ps : forall k w r, writes k w r -> writes (l_write ps k) (sconcat ps +++ w) r.
Proof. induction ps as [|p ps IH]; cbn [l_write sconcat]; intros k w r H; auto. rewrite sapp_assoc. constructor. auto. Qed.
Lemma link_writes early x c : writes (link_body early x c) (link_text early x c) (link_result x c).
Proof.
  destruct x as [|name]; cbn [link_body link_text link_result].
  - unfold console_body, console_text, console_result. destruct (pretty_cases (l_message c)) as [[t ->]| ->], early; cbv beta iota zeta.
    + pose proof (l_write_writes (chop (l_cuts c) (l_info c +++ newline)) _ _ _ (l_write_writes (chop (l_cuts2 c) (t +++ newline)) _ _ _ w_ret)) as H.
      now rewrite !chop_all, !sapp_assoc, ?sapp_nil_r in H.
    + pose proof (l_write_writes (chop (l_cuts c) (l_info c +++ newline)) _ _ _ (l_write_writes (chop (l_cuts2 c) (t +++ newline)) _ _ _ w_ret)) as H.
      now rewrite !chop_all, !sapp_assoc, ?sapp_nil_r in H.
    + pose proof (l_write_writes (chop (l_cuts c) (l_info c +++ newline)) _ _ _ (w_stop type_error_316)) as H. now rewrite chop_all, sapp_nil_r in H.
    + constructor.
  - unfold file_body, file_text, file_result. destruct (pretty_cases (l_log c)) as [[t ->]| ->]; [|constructor].
    pose proof (l_write_writes (chop (l_cuts c) (t +++ newline)) _ _ _ w_ret) as H. now rewrite chop_all, sapp_nil_r in H.
Qed.

Section Proofs.
  Variable (early : bool) (chain : list (level * sink)) (init : sink -> string).
  Notation link_text := (link_text early).
  Notation qrun := (qrun early chain). Notation qstep := (qstep early chain).
  Definition texts (k : nat) (x : sink) (ls : list qlabel) : string := sconcat (map (link_text x) (done_by k ls)).
  Lemma texts_snoc k x ls l : texts k x (ls ++ [l]) =
    texts k x ls +++ match l with QDone _ k' c _ => if Nat.eqb k' k then link_text x c else "" | _ => "" end.
  Proof.
    unfold texts, done_by. rewrite flat_map_app, map_app, sconcat_app. f_equal. cbn [flat_map]. rewrite app_nil_r.
    destruct l as [| |i k' c r|]; cbn; auto. destruct (Nat.eqb k' k); cbn; now rewrite ?sapp_nil_r.
  Qed.
  Lemma part_snoc k ps p : part k (ps ++ [p]) = part k ps +++ if Nat.eqb (fst p) k then snd p else "".
  Proof.
    unfold part. rewrite filter_app, map_app, sconcat_app. f_equal. cbn [filter]. destruct (Nat.eqb (fst p) k); cbn; now rewrite ?sapp_nil_r.
  Qed.
  (** Who holds which lock. *)
  Definition held (s : qsys) : Prop :=
    (forall i m k c p, q_at s i = QIn m k c p -> q_locks s k = Some i /\ exists l x, nth_error chain k = Some (l, x)) /\
    (forall k i, q_locks s k = Some i -> exists m c p, q_at s i = QIn m k c p).
  Lemma held_init : held (q_init init). Proof. split; intros; discriminate. Qed.
  Ltac at_case j i H := destruct (Nat.eq_dec j i) as [->|?]; [rewrite qmove_same in H|rewrite qmove_other in H by assumption].
  Lemma held_out o ks f i y : held {| q_sinks := o; q_locks := ks; q_at := f |} ->
    (forall m k c p, f i <> QIn m k c p) -> (forall m k c p, y <> QIn m k c p) ->
    forall o', held {| q_sinks := o'; q_locks := ks; q_at := qmove i y f |}.
  Proof.
    intros [H1 H2] F Y o'. split; cbn in *.
    - intros j m k c p E. at_case j i E; [now apply Y in E|eauto].
    - intros k j E. destruct (H2 _ _ E) as (m & c & p & Ej). exists m, c, p. destruct (Nat.eq_dec j i) as [->|N]; [now apply F in Ej|now rewrite qmove_other].
  Qed.
  Lemma held_back o ks f i y m k c p : held {| q_sinks := o; q_locks := ks; q_at := f |} -> f i = QIn m k c p ->
    (forall m k c p, y <> QIn m k c p) -> held {| q_sinks := o; q_locks := qlock k None ks; q_at := qmove i y f |}.
  Proof.
    intros [H1 H2] F Y. pose proof (H1 _ _ _ _ _ F) as [Lk _]. cbn in *. split; cbn.
    - intros j m' k' c' p' E. at_case j i E; [now apply Y in E|]. pose proof (H1 _ _ _ _ _ E) as [Lk' Hc]. split; auto.
      rewrite qlock_other; auto. intros ->. congruence.
    - intros k' j E. destruct (Nat.eq_dec k' k) as [->|N]; [now rewrite qlock_same in E|rewrite qlock_other in E by auto].
      destruct (H2 _ _ E) as (m' & c' & p' & Ej). exists m', c', p'. destruct (Nat.eq_dec j i) as [->|]; [congruence|now rewrite qmove_other].
  Qed.
  Lemma held_step s l s' : held s -> qstep s l s' -> held s'.
  Proof.
    intros H St. inversion St; subst.
    1-4, 9: eapply held_out; [exact H| |]; intros; congruence.
    - destruct H as [A1 A2]. cbn in *. split; cbn.
      + intros j m' k' c' p' E. at_case j i E.
        * injection E as <- <- <- <-. rewrite qlock_same. eauto.
        * pose proof (A1 _ _ _ _ _ E) as [Lk Hc]. split; auto. rewrite qlock_other; auto. intros ->. congruence.
      + intros k' j E. destruct (Nat.eq_dec k' k) as [->|N]; [rewrite qlock_same in E; injection E as <-; rewrite qmove_same; eauto|].
        rewrite qlock_other in E by auto. destruct (A2 _ _ E) as (m' & c' & p' & Ej). exists m', c', p'.
        rewrite qmove_other; auto. intros ->. congruence.
    - destruct H as [A1 A2]. cbn in *. split; cbn.
      + intros j m' k' c' p' E. at_case j i E; [injection E as <- <- <- <-|]; eauto.
      + intros k' j E. destruct (A2 _ _ E) as (m' & c' & p' & Ej). destruct (Nat.eq_dec j i) as [->|]; [rewrite qmove_same|rewrite qmove_other by auto; eauto].
        rewrite Ej in *. match goal with H : QIn _ _ _ _ = QIn _ _ _ _ |- _ => injection H as -> -> -> -> end. eauto.
    - eapply held_back; [exact H|eassumption|intros; congruence].
    - eapply held_back; [exact H|eassumption|intros; congruence].
  Qed.
  (** What is in a sink. *)
  Definition filled (ls : list qlabel) (s : qsys) (x : sink) : Prop := exists ps,
    q_sinks s x = init x +++ sconcat (map snd ps) /\
    Forall (fun p => exists l, nth_error chain (fst p) = Some (l, x)) ps /\
    forall k l, nth_error chain k = Some (l, x) ->
      (q_locks s k = None -> part k ps = texts k x ls) /\
      (forall i m c p, q_at s i = QIn m k c p -> exists first rest,
         writes p rest (link_result x c) /\ link_text x c = first +++ rest /\ part k ps = texts k x ls +++ first).
  (** Steps that do not touch loggers. *)
  Lemma filled_out o ks f i y ls l x : filled ls {| q_sinks := o; q_locks := ks; q_at := f |} x ->
    (forall m k c p, y <> QIn m k c p) -> (forall k, texts k x (ls ++ [l]) = texts k x ls) ->
    filled (ls ++ [l]) {| q_sinks := o; q_locks := ks; q_at := qmove i y f |} x.
  Proof.
    intros (ps & P1 & P2 & P3) Y T. exists ps. cbn in *. split; auto. split; auto. intros k lv Hk. rewrite T.
    destruct (P3 _ _ Hk) as [Q1 Q2]. split; auto. intros j m c p E. at_case j i E; [now apply Y in E|eauto].
  Qed.
  Lemma filled_back o ks f i y ls m k c p r x : held {| q_sinks := o; q_locks := ks; q_at := f |} ->
    filled ls {| q_sinks := o; q_locks := ks; q_at := f |} x -> f i = QIn m k c p -> writes p "" r ->
    (forall rest r', writes p rest r' -> rest = "") ->
    (forall m k c p, y <> QIn m k c p) ->
    filled (ls ++ [QDone i k c r]) {| q_sinks := o; q_locks := qlock k None ks; q_at := qmove i y f |} x.
  Proof.
    intros [A1 A2] (ps & P1 & P2 & P3) F W We Y. exists ps. cbn in *. split; auto. split; auto. intros k' lv Hk.
    destruct (P3 _ _ Hk) as [Q1 Q2]. rewrite texts_snoc. destruct (Nat.eq_dec k' k) as [->|N].
    - rewrite Nat.eqb_refl. split.
      + intros _. destruct (Q2 _ _ _ _ F) as (first & rest & W' & T & Pt). apply We in W'. subst rest. rewrite sapp_nil_r in T. now rewrite Pt, T.
      + intros j m' c' p' E. at_case j i E; [now apply Y in E|]. pose proof (A1 _ _ _ _ _ E) as [Lk _]. pose proof (A1 _ _ _ _ _ F) as [Lk' _]. congruence.
    - replace (Nat.eqb k k') with false by (symmetry; now apply Nat.eqb_neq; auto). rewrite sapp_nil_r, qlock_other by auto. split; auto.
      intros j m' c' p' E. at_case j i E; [now apply Y in E|eauto].
  Qed.
  Lemma filled_step ls s l s' x : held s -> filled ls s x -> qstep s l s' -> filled (ls ++ [l]) s' x.
  Proof.
    intros H Fx St. inversion St; subst.
    1-4, 9: apply filled_out; [exact Fx|intros; congruence|intros; rewrite texts_snoc; apply sapp_nil_r].
    - destruct Fx as (ps & P1 & P2 & P3). exists ps. cbn in *. split; auto. split; auto. intros k' lv Hk.
      destruct (P3 _ _ Hk) as [Q1 Q2]. rewrite texts_snoc, sapp_nil_r. destruct (Nat.eq_dec k' k) as [->|N].
      + rewrite qlock_same. split; [discriminate|]. intros j m' c' p' E. at_case j i E.
        * injection E as <- <- <-. match goal with H1 : nth_error chain k = Some (l0, x0) |- _ => rewrite Hk in H1; injection H1 as -> -> end.
          exists "", (link_text x0 c). split; [apply link_writes|]. split; auto. rewrite sapp_nil_r. auto.
        * destruct H as [A1 _]. apply A1 in E as [E _]. cbn in E. congruence.
      + rewrite qlock_other by auto. split; auto. intros j m' c' p' E. at_case j i E; [congruence|eauto].
    - destruct H as [A1 A2]. pose proof Fx as (ps & P1 & P2 & P3). cbn in *.
      match goal with H : f i = QIn m k c (CStep g p) |- _ => rename H into Fi end.
      match goal with H : nth_error chain k = Some (l0, x0) |- _ => rename H into Hk end.
      destruct (sink_eqb x x0) eqn:Ex.
      + apply sink_eqb_eq in Ex. subst x0. destruct (P3 _ _ Hk) as [_ Q2]. destruct (Q2 _ _ _ _ Fi) as (first & rest & W & T & Pt).
        inversion W as [| |t kk w r W' Eg Ew Er]; subst. exists (ps ++ [(k, t)])%list. cbn. rewrite qsink_same. split; [|split].
        * rewrite map_app, sconcat_app. cbn. rewrite sapp_nil_r, P1. apply sapp_assoc.
        * apply Forall_app. split; auto. repeat constructor. cbn. eauto.
        * intros k' lv Hk'. destruct (P3 _ _ Hk') as [Q1' Q2']. rewrite part_snoc, texts_snoc, sapp_nil_r. cbn [fst snd].
          destruct (Nat.eq_dec k' k) as [->|N].
          -- rewrite Nat.eqb_refl. split.
             ++ intros L. pose proof (A1 _ _ _ _ _ Fi) as [Lk _]. congruence.
             ++ intros j m' c' p' E. at_case j i E.
                ** injection E as <- <- <-. exists (first +++ t), w. split; auto. rewrite T, Pt, !sapp_assoc. auto.
                ** pose proof (A1 _ _ _ _ _ E) as [L1 _]. pose proof (A1 _ _ _ _ _ Fi) as [L2 _]. congruence.
          -- replace (Nat.eqb k k') with false by (symmetry; now apply Nat.eqb_neq; auto). rewrite sapp_nil_r. split; auto.
             intros j m' c' p' E. at_case j i E; [congruence|eauto].
      + assert (Nx : x <> x0) by (intros ->; rewrite sink_eqb_refl in Ex; discriminate).
        exists ps. cbn. rewrite qsink_other by auto. split; auto. split; auto. intros k' lv Hk'. destruct (P3 _ _ Hk') as [Q1' Q2'].
        rewrite texts_snoc, sapp_nil_r. split; auto. intros j m' c' p' E. at_case j i E; [|eauto].
        injection E as <- <- <- <-. congruence.
    - eapply filled_back; [exact H|exact Fx|eassumption|constructor|now inversion 1|intros; congruence].
    - eapply filled_back; [exact H|exact Fx|eassumption|constructor|now inversion 1|intros; congruence].
  Qed.
  Lemma run_held ls s : qrun (q_init init) ls s -> held s.
  Proof. remember (q_init init) as s0. induction 1; subst; [apply held_init|eauto using held_step]. Qed.
  Lemma run_filled ls s x : qrun (q_init init) ls s -> filled ls s x.
  Proof.
    remember (q_init init) as s0. induction 1 as [|s0 ls s1 l s2 R IH St]; subst.
    - exists []. cbn. rewrite sapp_nil_r. split; auto. split; auto. intros k l Hk. split; auto. intros; discriminate.
    - eapply filled_step; eauto using run_held.
  Qed.

  (** A sink with one logger. *)
  Lemma part_all k ps : Forall (fun p => fst p = k) ps -> part k ps = sconcat (map snd ps).
  Proof.
    unfold part. induction 1 as [|p ps E _ IH]; cbn [filter map sconcat]; auto. subst k. rewrite Nat.eqb_refl. cbn. now rewrite IH.
  Qed.
  Lemma run_own ls s x k l : qrun (q_init init) ls s -> nth_error chain k = Some (l, x) ->
    (forall k' l', nth_error chain k' = Some (l', x) -> k' = k) -> q_locks s k = None ->
    q_sinks s x = init x +++ texts k x ls.
  Proof.
    intros R Hk Own L. destruct (run_filled _ _ x R) as (ps & P1 & P2 & P3). destruct (P3 _ _ Hk) as [Q _]. rewrite <- (Q L), part_all; auto.
    eapply Forall_impl; [|exact P2]. intros p (l' & E). eauto.
  Qed.
  (** How a logger ends. *)
  Lemma run_done ls s i k c r : qrun (q_init init) ls s -> List.In (QDone i k c r) ls -> exists l x, nth_error chain k = Some (l, x) /\ r = link_result x c.
  Proof.
    remember (q_init init) as s0. induction 1 as [|s0 ls s1 l s2 R IH St]; subst; [intros []|]. intros Hin.
    apply in_app_iff in Hin as [Hin|[->|[]]]; [auto|]. pose proof (run_held _ _ R) as [A1 _].
    inversion St; subst;
      match goal with H : _ = QIn _ _ _ _ |- _ => rename H into Fi end;
      destruct (A1 _ _ _ _ _ Fi) as [_ (l & x & Hk)]; exists l, x; (split; [auto|]);
      destruct (run_filled _ _ x R) as (ps & _ & _ & P3); destruct (P3 _ _ Hk) as [_ Q]; destruct (Q _ _ _ _ Fi) as (? & ? & W & _); now inversion W.
  Qed.

  (** The calls are over one after the other. *)
  Definition filled_turn (ls : list qlabel) (s : qsys) (x : sink) (o : option nat) : Prop :=
    (forall j, o <> Some j -> q_at s j = QOut) /\
    (forall i, o = Some i -> q_at s i <> QOut) /\
    (match o with
     | None => q_sinks s x = init x +++ sconcat (done_at early chain x ls)
     | Some i =>
         match q_at s i with
         | QIn m k c p =>
             forall l y, nth_error chain k = Some (l, y) -> 
             if sink_eqb y x then exists first rest, writes p rest (link_result x c) /\ link_text x c = first +++ rest /\
               q_sinks s x = init x +++ sconcat (done_at early chain x ls) +++ first
             else q_sinks s x = init x +++ sconcat (done_at early chain x ls) 
         | _ => q_sinks s x = init x +++ sconcat (done_at early chain x ls)
         end
     end).
  Lemma done_at_snoc x ls l : sconcat (done_at early chain x (ls ++ [l])) =
    sconcat (done_at early chain x ls) +++ sconcat (done_at early chain x [l]).
  Proof. unfold done_at. now rewrite flat_map_app, sconcat_app. Qed.
  Lemma turn_locks s o ls x : held s -> filled_turn ls s x o -> forall k, (forall i m c p, o = Some i -> q_at s i <> QIn m k c p) -> q_locks s k = None.
  Proof.
    intros [A1 A2] (T1 & T2 & _) k H. destruct (q_locks s k) as [j|] eqn:E; auto. destruct (A2 _ _ E) as (m & c & p & Ej). exfalso.
    destruct o as [i|].
    - destruct (Nat.eq_dec i j) as [->|N]; [now apply (H j m c p eq_refl)|]. rewrite T1 in Ej; congruence.
    - rewrite T1 in Ej; congruence.
  Qed.
  Lemma turn_step ls s l s' x o o' : held s -> filled_turn ls s x o -> in_turns ls o -> qstep s l s' ->
    in_turns (ls ++ [l]) o' -> filled_turn (ls ++ [l]) s' x o'.
  Proof.
    intros H (T1 & T2 & T3) Tn St Tn'.
    assert (Ho : o' = match l with QBack _ _ _ => None | QCall i _ | QTau i | QDone i _ _ _ => Some i end).
    { inversion Tn' as [E|? ? ? ? E|? ? ? E|? ? ? ? ? ? E|? ? ? ? ? E]; [now destruct ls| | | |]; apply app_inj_tail in E as [_ <-]; auto. }
    assert (Hi : match l with QCall _ _ => o = None | QBack i _ _ | QTau i | QDone i _ _ _ => o = Some i end).
    { assert (F : forall ls a b, in_turns ls a -> in_turns ls b -> a = b).
      { clear. intros ls a b Ha. revert b. induction Ha; intros b Hb; inversion Hb as [E|? ? ? ? E|? ? ? E|? ? ? ? ? ? E|? ? ? ? ? E]; subst; auto;
          try (destruct ls; discriminate); try (destruct ls0; discriminate); try (apply app_inj_tail in E as [_ E]; try discriminate; congruence). }
      inversion Tn' as [E|? ? ? Tp E|? ? Tp E|? ? ? ? ? Tp E|? ? ? ? Tp E]; [now destruct ls| | | |]; apply app_inj_tail in E as [-> <-]; eauto. }
    assert (Om : forall i y f, (forall j, Some i <> Some j -> f j = QOut) -> forall j, Some i <> Some j -> qmove i y f j = QOut).
    { intros i y f Hf j N. rewrite qmove_other by congruence. auto. }
    assert (On : forall i f, (forall j, Some i <> Some j -> f j = QOut) -> forall j, None <> Some j -> qmove i QOut f j = QOut).
    { intros i f Hf j N. unfold qmove. destruct (Nat.eqb j i) eqn:E; auto. apply Nat.eqb_neq in E. apply Hf. congruence. }
    inversion St; subst; cbn in *; unfold filled_turn; cbn; subst; try injection Hi as ->;
      try match goal with H : @eq qplace _ _ |- _ => rewrite H in T3 end;
      (split; [try (apply Om; auto; intros; apply T1; congruence); try (apply On; auto); auto|]);
      (split; [try discriminate; intros ? E0; injection E0 as <-; rewrite qmove_same; discriminate|]);
      rewrite ?qmove_same; try (rewrite done_at_snoc; cbn; rewrite sapp_nil_r; exact T3).
    - intros l' y Hk. assert (E : l' = l0 /\ y = x0) by (split; congruence). destruct E as [-> ->].
      destruct (sink_eqb x0 x) eqn:Ex; [|rewrite done_at_snoc; cbn; rewrite sapp_nil_r; exact T3]. apply sink_eqb_eq in Ex. subst x0.
      exists "", (link_text x c). split; [apply link_writes|]. split; auto. rewrite done_at_snoc. cbn. now rewrite !sapp_nil_r.
    - intros l' y Hk. assert (E : l' = l0 /\ y = x0) by (split; congruence). destruct E as [-> ->]. specialize (T3 _ _ Hk).
      rewrite done_at_snoc; cbn; rewrite sapp_nil_r.
      destruct (sink_eqb x0 x) eqn:Ex.
      + apply sink_eqb_eq in Ex. subst x0. destruct T3 as (first & rest & W & T & P). inversion W as [| |t kk w r W' Eg Ew Er]; subst.
        exists (first +++ t), w. rewrite qsink_same, P. split; auto. rewrite T, !sapp_assoc. auto.
      + rewrite qsink_other; auto. intros ->. now rewrite sink_eqb_refl in Ex.
    - destruct H as [A1 _]. match goal with H : @eq qplace _ _ |- _ => destruct (A1 _ _ _ _ _ H) as [_ (l' & y & Hk)] end. cbn in *. specialize (T3 _ _ Hk).
      rewrite done_at_snoc. cbn. rewrite Hk. destruct (sink_eqb y x) eqn:Ex; cbn; rewrite ?sapp_nil_r; auto.
      apply sink_eqb_eq in Ex. subst y. destruct T3 as (first & rest & W & T & P). inversion W; subst. rewrite sapp_nil_r in T. now rewrite T, P.
    - destruct H as [A1 _]. match goal with H : @eq qplace _ _ |- _ => destruct (A1 _ _ _ _ _ H) as [_ (l' & y & Hk)] end. cbn in *. specialize (T3 _ _ Hk).
      rewrite done_at_snoc. cbn. rewrite Hk. destruct (sink_eqb y x) eqn:Ex; cbn; rewrite ?sapp_nil_r; auto.
      apply sink_eqb_eq in Ex. subst y. destruct T3 as (first & rest & W & T & P). inversion W; subst. rewrite sapp_nil_r in T. now rewrite T, P.
  Qed.
  Lemma turns_init ls l o : in_turns (ls ++ [l]) o -> exists o1, in_turns ls o1.
  Proof. intros H. inversion H as [E|? ? ? Tp E|? ? Tp E|? ? ? ? ? Tp E|? ? ? ? Tp E]; [now destruct ls| | | |]; apply app_inj_tail in E as [-> <-]; eauto. Qed.
  Lemma run_turns ls s x : qrun (q_init init) ls s -> forall o, in_turns ls o -> filled_turn ls s x o.
  Proof.
    remember (q_init init) as s0. induction 1 as [|s0 ls s1 l s2 R IH St]; subst; intros o To.
    - inversion To as [E|? ? ? Tp E|? ? Tp E|? ? ? ? ? Tp E|? ? ? ? Tp E]; subst; try (destruct ls; discriminate).
      split; [auto|]. split; [discriminate|]. cbn. now rewrite sapp_nil_r.
    - destruct (turns_init _ _ _ To) as [o1 T1]. eapply turn_step; eauto using run_held.
  Qed.
  (** The calls of one thread do not overlap. *)
  Lemma run_one i ls s : qrun (q_init init) ls s -> Forall (of_thread i) ls ->
    (forall j, j <> i -> q_at s j = QOut) /\ in_turns ls (match q_at s i with QOut => None | _ => Some i end).
  Proof.
    remember (q_init init) as s0. induction 1 as [|s0 ls s1 l s2 R IH St]; subst; intros Fi.
    - split; [auto|constructor].
    - apply Forall_app in Fi as [F1 F2]. apply Forall_inv in F2. destruct (IH eq_refl F1) as [IH1 IH2].
      inversion St; subst; cbn in *; subst; rewrite qmove_same; (split; [intros jj N; rewrite qmove_other; auto|]);
        match goal with H : @eq qplace _ _ |- _ => rewrite H in IH2 end; now constructor.
  Qed.

  (** A thread gets out of the loggers without the others being called again. *)
  Lemma qrun_app s1 ls1 s2 ls2 s3 : qrun s1 ls1 s2 -> qrun s2 ls2 s3 -> qrun s1 (ls1 ++ ls2) s3.
  Proof. intros H1 H2. induction H2 as [|s2 ls s3 l s4 H IH St]; [now rewrite app_nil_r|]. rewrite app_assoc. econstructor; eauto. Qed.
  Lemma qrun_cons s1 l s2 ls s3 : qstep s1 l s2 -> qrun s2 ls s3 -> qrun s1 (l :: ls) s3.
  Proof. intros H1 H2. apply (qrun_app s1 [l] s2 ls s3); auto. apply (qr_snoc _ _ s1 [] s1 l s2); auto. constructor. Qed.
  Lemma body_done p rest r : writes p rest r -> forall s j m k c l x, q_at s j = QIn m k c p -> nth_error chain k = Some (l, x) ->
    exists ls s', qrun s ls s' /\ Forall q_no_call ls /\ q_locks s' k = None /\
      q_at s' j = (match r with inl _ => QAt m (S k) | inr e => QFail m e end) /\ forall i, i <> j -> q_at s' i = q_at s i.
  Proof.
    induction 1 as [|e|t kk w r W IH]; intros [o ks f] j m k c l x E Hk; cbn in E.
    - eexists [_], _. split; [eapply qrun_cons; [eapply q_ret; exact E|constructor]|]. split; [repeat constructor|]. cbn. rewrite qlock_same, qmove_same.
      split; auto. split; auto. intros i N. now rewrite qmove_other.
    - eexists [_], _. split; [eapply qrun_cons; [eapply q_stop; exact E|constructor]|]. split; [repeat constructor|]. cbn. rewrite qlock_same, qmove_same.
      split; auto. split; auto. intros i N. now rewrite qmove_other.
    - pose proof (q_write early chain o ks f j m k c l x _ _ E Hk) as St.
      match type of St with Chain.qstep _ _ _ _ ?s2 => destruct (IH s2 j m k c l x) as (ls & s' & R & Hn & L & A & B) end; [cbn; apply qmove_same|exact Hk|].
      eexists (_ :: ls), s'. split; [eapply qrun_cons; [exact St|exact R]|]. split; [constructor; [exact I|auto]|]. split; auto. split; auto.
      intros i N. rewrite B by auto. cbn. now rewrite qmove_other.
  Qed.
  Lemma post_cases l m : (exists j, post_message l m = Ok j) \/ exists e, post_message l m = Exn e.
  Proof.
    unfold post_message, at_level, value_string, jvalue, get_string. destruct (po_header m) as [| | | | | |o]; cbn; eauto.
    destruct (mfind "msg_type" o) as [v|]; cbn; eauto. destruct v; cbn; eauto.
  Qed.
  Definition ends (s : qsys) (i : nat) : Prop := exists ls s' m r, qrun s ls s' /\ Forall q_no_call ls /\ List.In (QBack i m r) ls /\ q_at s' i = QOut.
  Lemma ends_after s1 ls s2 i : qrun s1 ls s2 -> Forall q_no_call ls -> ends s2 i -> ends s1 i.
  Proof.
    intros R F (ls' & s' & m & r & R' & F' & Hin & E). exists (ls ++ ls')%list, s', m, r. split; [eapply qrun_app; eauto|]. split; [now apply Forall_app|].
    split; auto. apply in_app_iff. auto.
  Qed.
  Lemma ends_step s1 l s2 i : qstep s1 l s2 -> q_no_call l -> ends s2 i -> ends s1 i.
  Proof. intros St N. apply (ends_after _ [l]); [eapply qrun_cons; [exact St|constructor]|auto]. Qed.
  Definition level_of (q : qplace) : nat :=
    match q with QAt _ k => 3 * (List.length chain - k) + 1 | QWait _ k _ => 3 * (List.length chain - k) | QIn _ k _ _ => 3 * (List.length chain - k) - 1 | _ => 0 end.
  (** Bodies that are run write a text. *)
  Definition good (s : qsys) : Prop := held s /\ (forall i m k c p, q_at s i = QIn m k c p -> exists rest r, writes p rest r) /\
    (forall i m k c, q_at s i = QWait m k c -> k < List.length chain).
  Lemma good_step s l s' : good s -> qstep s l s' -> good s'.
  Proof.
    intros (H & G & W) St. split; [eapply held_step; eauto|]. inversion St; subst; cbn in *;
      (split; [intros j0 m' k' c' p' E|intros j0 m' k' c' E]); (at_case j0 i E; [|now eauto]); try discriminate; try (injection E as <- <- <- <-); try (injection E as <- <- <-).
    - apply nth_error_Some. congruence.
    - eauto using link_writes.
    - match goal with H : @eq qplace _ _ |- _ => destruct (G _ _ _ _ _ H) as (rest & r & Wr) end. inversion Wr; subst. eauto.
  Qed.
  Lemma good_run s ls s' : good s -> qrun s ls s' -> good s'.
  Proof. intros H R. induction R as [|s ls s1 l s2 R IH St]; [exact H|]. eapply good_step; [apply IH; exact H|exact St]. Qed.
  Lemma run_good ls s : qrun (q_init init) ls s -> good s.
  Proof. apply good_run. split; [apply held_init|]. split; intros; discriminate. Qed.
  Lemma good_ends n : forall s i, good s -> q_at s i <> QOut -> level_of (q_at s i) < n -> ends s i.
  Proof.
    induction n as [|n IH]; intros s i G Ni Hl; [lia|]. pose proof G as (H & Gw & Wk).
    destruct (q_at s i) as [|m k|m k c|m k c p|m e] eqn:E.
    - congruence.
    - destruct s as [o ks f]. cbn in E. destruct (nth_error chain k) as [[l x]|] eqn:Hk.
      + assert (k < List.length chain) by (apply nth_error_Some; congruence).
        destruct (post_cases l m) as [[j Hj]|[e He]].
        * pose proof (q_make early chain o ks f i m k l x j E Hk Hj) as St. eapply ends_step; [exact St|exact I|].
          apply IH; [eapply good_step; eauto|cbn; rewrite qmove_same; discriminate|cbn; rewrite qmove_same; cbn in *; lia].
        * exists [QBack i m (inr e)]. eexists _, m, (inr e). split; [eapply qrun_cons; [eapply q_fail; eauto|constructor]|]. split; [repeat constructor|].
          split; [left; auto|]. cbn. apply qmove_same.
      + exists [QBack i m (inl tt)]. eexists _, m, (inl tt). split; [eapply qrun_cons; [eapply q_end; eauto|constructor]|]. split; [repeat constructor|].
        split; [left; auto|]. cbn. apply qmove_same.
    - pose proof (Wk _ _ _ _ E) as Hlt. destruct (nth_error chain k) as [[l x]|] eqn:Hk; [|apply nth_error_None in Hk; lia].
      assert (Free : forall s, good s -> q_at s i = QWait m k c -> q_locks s k = None -> ends s i).
      { clear s G Ni H Gw Wk E. intros [o ks f] G E L. cbn in E, L. pose proof (q_take early chain o ks f i m k c l x E Hk L) as St.
        eapply ends_step; [exact St|exact I|]. apply IH; [eapply good_step; eauto|cbn; rewrite qmove_same; discriminate|cbn; rewrite qmove_same; cbn; cbn in Hl; lia]. }
      destruct (q_locks s k) as [j|] eqn:L; [|auto]. destruct H as [A1 A2]. destruct (A2 _ _ L) as (m' & c' & p' & Ej).
      destruct (Gw _ _ _ _ _ Ej) as (rest & r & W). destruct (body_done _ _ _ W _ _ _ _ _ _ _ Ej Hk) as (ls & s' & R & Hn & L' & _ & B).
      eapply ends_after; [exact R|exact Hn|]. apply Free; [eapply good_run; eauto|rewrite B; congruence|exact L'].
    - destruct H as [A1 A2]. destruct (A1 _ _ _ _ _ E) as [_ (l & x & Hk)]. assert (k < List.length chain) by (apply nth_error_Some; congruence).
      destruct (Gw _ _ _ _ _ E) as (rest & r & W). destruct (body_done _ _ _ W _ _ _ _ _ _ _ E Hk) as (ls & s' & R & Hn & L' & A & B).
      eapply ends_after; [exact R|exact Hn|]. pose proof (good_run _ _ _ G R) as G'. destruct r as [u|e].
      + apply IH; auto; rewrite A; [discriminate|cbn in *; lia].
      + destruct s' as [o ks f]. cbn in A. exists [QBack i m (inr e)]. eexists _, m, (inr e). split; [eapply qrun_cons; [eapply q_leave; eauto|constructor]|].
        split; [repeat constructor|]. split; [left; auto|]. cbn. apply qmove_same.
    - destruct s as [o ks f]. cbn in E. exists [QBack i m (inr e)]. eexists _, m, (inr e). split; [eapply qrun_cons; [eapply q_leave; eauto|constructor]|].
      split; [repeat constructor|]. split; [left; auto|]. cbn. apply qmove_same.
  Qed.
End Proofs.

(** ** The results of the calls *)
Fixpoint from (k : nat) (lg : logger) : logger :=
  match k, lg with 0, _ => lg | S k, LLogger _ _ n => from k n | S _, LNolog => LNolog end.
Lemma from_some lg : forall k l x, nth_error (links lg) k = Some (l, x) -> from k lg = LLogger l x (from (S k) lg).
Proof.
  induction lg as [|l0 x0 n IH]; intros [|k] l x; cbn; try discriminate; [now intros [= <- <-]|]. intros H. rewrite (IH _ _ _ H). reflexivity.
Qed.
Lemma from_none lg : forall k, nth_error (links lg) k = None -> from k lg = LNolog.
Proof. induction lg as [|l0 x0 n IH]; intros [|k]; cbn; try discriminate; auto. Qed.
Definition outcome (lg : logger) (m : post) : res unit := snd (log_message lg (po_info m) (po_header m) (po_parent m) (po_meta m) (po_content m)).
Lemma same_text j : (exists t u, pretty j = Ok t /\ dump EStrict j = Ok u) \/ (pretty j = Exn type_error_316 /\ dump EStrict j = Exn type_error_316).
Proof.
  unfold pretty, dump. pose proof (pretty_dump j 0) as [H1 H2]. destruct (pretty_opt 0 j), (dump_opt EStrict j); eauto 6;
    [discriminate (H2 eq_refl)|discriminate (H1 eq_refl)].
Qed.
Lemma outcome_link l x n m j k : post_message l m = Ok j ->
  outcome (LLogger l x n) m = match link_result x (post_call m k j) with inl _ => outcome n m | inr e => Exn e end.
Proof.
  unfold post_message, outcome. intros H. cbn [log_message]. rewrite H. cbn [bind]. destruct x as [|name]; cbn [write_entry link_result].
  - unfold console_result. cbn [l_message post_call]. destruct (same_text j) as [(t & u & -> & ->)|[-> ->]]; cbn; auto.
    now destruct (log_message n _ _ _ _ _).
  - unfold file_result, l_log. cbn [l_message l_info post_call]. destruct (same_text (jobj [("info", JStr (po_info m)); ("message", j)])) as [(t & u & -> & ->)|[-> ->]]; cbn; auto.
    now destruct (log_message n _ _ _ _ _).
Qed.
Lemma outcome_fail l x n m e : post_message l m = Exn e -> outcome (LLogger l x n) m = Exn e.
Proof. unfold post_message, outcome. intros H. cbn [log_message]. now rewrite H. Qed.

Section Results.
  Variable (early : bool) (lg : logger) (init : sink -> string).
  Notation chain := (links lg). Notation qrun := (qrun early chain). Notation qstep := (qstep early chain).
  Definition written (ls : list qlabel) (i : nat) (m : post) (k : nat) : Prop :=
    forall k', k' < k -> exists l x j, nth_error chain k' = Some (l, x) /\ post_message l m = Ok j /\ List.In (QDone i k' (post_call m k' j) (inl tt)) ls.
  Definition so_far (ls : list qlabel) (i : nat) (m : post) (k : nat) : Prop := outcome (from k lg) m = outcome lg m /\ written ls i m k.
  Definition its (m : post) (k : nat) (c : lcall) : Prop := exists l x j, nth_error chain k = Some (l, x) /\ post_message l m = Ok j /\ c = post_call m k j.
  Definition thread_ok (ls : list qlabel) (i : nat) (q : qplace) : Prop :=
    match q with
    | QOut => True
    | QAt m k => so_far ls i m k
    | QWait m k c => so_far ls i m k /\ its m k c
    | QIn m k c _ => so_far ls i m k /\ its m k c
    | QFail m e => outcome lg m = Exn e
    end.
  Lemma written_more ls l i m k : written ls i m k -> written (ls ++ [l]) i m k.
  Proof. intros H k' Hk. destruct (H k' Hk) as (lv & x & j & A & B & C). exists lv, x, j. split; auto. split; auto. apply in_app_iff. auto. Qed.
  Lemma thread_more ls l i q : thread_ok ls i q -> thread_ok (ls ++ [l]) i q.
  Proof. destruct q; cbn; unfold so_far; intuition auto using written_more. Qed.
  Definition result_ok (m : post) (r : unit + exn) : Prop := outcome lg m = match r with inl _ => Ok tt | inr e => Exn e end.
  Lemma thread_step ls s l s' : qrun (q_init init) ls s -> (forall i, thread_ok ls i (q_at s i)) -> qstep s l s' ->
    (forall i, thread_ok (ls ++ [l]) i (q_at s' i)) /\
    (forall i m r, l = QBack i m r -> result_ok m r /\ (r = inl tt -> written ls i m (List.length chain))).
  Proof.
    intros R H St.
    assert (Mv : forall i y f, (forall j, thread_ok ls j (f j)) -> thread_ok (ls ++ [l]) i y -> forall j, thread_ok (ls ++ [l]) j (qmove i y f j)).
    { intros i y f Hf Hy j. unfold qmove. destruct (Nat.eqb j i) eqn:Ej; [apply Nat.eqb_eq in Ej; now subst|apply thread_more; auto]. }
    inversion St; subst; cbn in H |- *;
      match goal with E : @eq qplace (?f ?i) _ |- _ => pose proof (H i) as Hi; rewrite E in Hi; cbn [thread_ok] in Hi; rename E into Ei end.
    - split; [|discriminate]. apply Mv; auto. split; [reflexivity|]. intros k' Hk. lia.
    - split; [|discriminate]. apply Mv; auto. split; [destruct Hi as [A B]; split; auto using written_more|]. red. eauto 7.
    - split; [apply Mv; cbn; auto|]. intros i' m' r [= <- <- <-]. split; [|discriminate]. destruct Hi as [A _].
      match goal with H1 : nth_error chain k = _, H2 : post_message _ _ = _ |- _ => rewrite (from_some _ _ _ _ H1), (outcome_fail _ _ _ _ _ H2) in A end.
      red. symmetry. exact A.
    - split; [apply Mv; cbn; auto|]. intros i' m' r [= <- <- <-]. destruct Hi as [A B]. 
      match goal with H1 : nth_error chain k = None |- _ => rewrite (from_none _ _ H1) in A; apply nth_error_None in H1; rename H1 into Hk end.
      split; [symmetry; exact A|]. intros _ k' Hk'. apply B. lia.
    - split; [|discriminate]. apply Mv; auto. cbn. destruct Hi as [[A B] C]. split; auto. split; auto using written_more.
    - split; [|discriminate]. apply Mv; auto. cbn. destruct Hi as [[A B] C]. split; auto. split; auto using written_more.
    - split; [|discriminate]. apply Mv; auto. cbn. destruct Hi as [[A B] (l & x & j & C1 & C2 & C3)].
      assert (Hr : link_result x c = inl tt).
      { destruct (run_filled early chain init _ _ x R) as (ps & _ & _ & P3). destruct (P3 _ _ C1) as [_ Q]. destruct (Q _ _ _ _ Ei) as (? & ? & W & _). now inversion W. }
      split.
      + rewrite <- A, (from_some _ _ _ _ C1), (outcome_link _ _ _ _ _ k C2), <- C3, Hr. reflexivity.
      + intros k' Hk'. destruct (Nat.eq_dec k' k) as [->|N].
        * exists l, x, j. split; auto. split; auto. apply in_app_iff. right. left. now subst.
        * apply (written_more _ _ _ _ _ B). lia.
    - split; [|discriminate]. apply Mv; auto. cbn. destruct Hi as [[A B] (l & x & j & C1 & C2 & C3)].
      assert (Hr : link_result x c = inr e).
      { destruct (run_filled early chain init _ _ x R) as (ps & _ & _ & P3). destruct (P3 _ _ C1) as [_ Q]. destruct (Q _ _ _ _ Ei) as (? & ? & W & _). now inversion W. }
      rewrite <- A, (from_some _ _ _ _ C1), (outcome_link _ _ _ _ _ k C2), <- C3, Hr. reflexivity.
    - split; [apply Mv; cbn; auto|]. intros i' m' r [= <- <- <-]. split; [exact Hi|discriminate].
  Qed.
  Lemma run_results ls s : qrun (q_init init) ls s ->
    (forall i, thread_ok ls i (q_at s i)) /\
    (forall i m r, List.In (QBack i m r) ls -> result_ok m r /\ (r = inl tt -> written ls i m (List.length chain))).
  Proof.
    remember (q_init init) as s0. induction 1 as [|s0 ls s1 l s2 R IH St]; subst.
    - split; [intros i; exact I|intros i m r []].
    - destruct (IH eq_refl) as [I1 I2]. destruct (thread_step _ _ _ _ R I1 St) as [S1 S2]. split; auto. intros i m r Hin.
      apply in_app_iff in Hin as [Hin|[->|[]]].
      + destruct (I2 _ _ _ Hin) as [A B]. split; auto. intros E. apply written_more. auto.
      + destruct (S2 _ _ _ eq_refl) as [A B]. split; auto. intros E. apply written_more. auto.
  Qed.
End Results.

Lemma qexec1_step early chain i m s l s' : qexec1 early chain i m s = Some (l, s') -> qstep early chain s l s'.
Proof.
  destruct s as [o ks f]. unfold qexec1. cbn. destruct (f i) as [|m0 k|m0 k c|m0 k c [u|e|g p]|m0 e] eqn:E.
  - destruct m; [|discriminate]. intros [= <- <-]. now apply q_call.
  - destruct (nth_error chain k) as [[lv x]|] eqn:Hk; [destruct (post_message lv m0) eqn:Hp; try discriminate|]; intros [= <- <-];
      [eapply q_make|eapply q_fail|eapply q_end]; eauto.
  - destruct (nth_error chain k) as [[lv x]|] eqn:Hk; [|discriminate]. destruct (ks k) eqn:L; [discriminate|]. intros [= <- <-]. eapply q_take; eauto.
  - destruct u. intros [= <- <-]. eapply q_ret; eauto.
  - intros [= <- <-]. eapply q_stop; eauto.
  - destruct (nth_error chain k) as [[lv x]|] eqn:Hk; [|discriminate]. intros [= <- <-]. eapply q_write; eauto.
  - intros [= <- <-]. eapply q_leave; eauto.
Qed.
Lemma qexec_run early chain l : forall s0 ls s, qrun early chain s0 ls s -> qrun early chain s0 (fst (qexec early chain l ls s)) (snd (qexec early chain l ls s)).
Proof.
  induction l as [|[i m] l IH]; intros s0 ls s R; cbn; auto. destruct (qexec1 early chain i m s) as [[a s']|] eqn:E; auto. apply IH. econstructor; [exact R|]. eapply qexec1_step; eauto.
Qed.
