(** Calls of an object protected by a mutex take effect one after the other. *)
From Verif Require Import Base BaseFacts Json JsonText JsonTextProofs JsonParseProofs Hex Auth Pretty PrettyProofs Message Logger Monitor.

Section Spec.
  Context {S R call : Type} (body : call -> code S R).
  (** [serial s0 cs s]: the calls [cs] made one after the other, with these results, take the object from
      [s0] to [s]. *)
  Inductive serial (s0 : S) : list (call * (R + exn)) -> S -> Prop :=
  | se_nil : serial s0 [] s0
  | se_snoc cs s1 c r s2 : serial s0 cs s1 -> alone _ _ (body c) s1 = (s2, r) -> serial s0 (cs ++ [(c, r)]) s2.
  (** The calls that are over, in this order. *)
  Definition backs (ls : list (mlabel R call)) : list (call * (R + exn)) :=
    flat_map (fun l => match l with NBack _ c r => [(c, r)] | _ => [] end) ls.
  Definition inside (s : msys S R call) (i : nat) : Prop := match n_at s i with In _ _ => True | _ => False end.
End Spec.

Section Proofs.
  Context {S R call : Type} (body : call -> code S R) (s0 : S).
  Notation run_to ls s := (mrun S R call body (m_init S R call s0) ls s).
  (** [reaches p s p' s']: some steps of the body lead from [p] in [s] to [p'] in [s']. *)
  Inductive reaches (p : code S R) (s : S) : code S R -> S -> Prop :=
  | re_refl : reaches p s p s
  | re_step f k s' : reaches p s (CStep f k) s' -> reaches p s (k s') (f s').
  Lemma reaches_alone p s p' s' : reaches p s p' s' -> alone _ _ p' s' = alone _ _ p s.
  Proof. induction 1; auto. Qed.
  Definition minv (ls : list (mlabel R call)) (s : msys S R call) : Prop :=
    exists s1, serial body s0 (backs ls) s1 /\
    match n_lock s with
    | None => n_obj s = s1 /\ forall i, ~ inside s i
    | Some j => (forall i, inside s i -> i = j) /\ exists c p, n_at s j = In c p /\ reaches (body c) s1 p (n_obj s)
    end.
  Lemma backs_snoc ls l : backs (ls ++ [l]) = (backs ls ++ backs [l] : list (call * (R + exn)))%list.
  Proof. apply flat_map_app. Qed.
  Lemma move_at i x (f : nat -> place S R call) j : move S R call i x f j = if Nat.eqb j i then x else f j.
  Proof. reflexivity. Qed.
  Lemma minv_step ls x l x' : minv ls x -> mstep S R call body x l x' -> minv (ls ++ [l]) x'.
  Proof.
    intros (s1 & Hs & Hi) Hst. unfold minv. rewrite backs_snoc.
    inversion Hst as [s o f i c H|s f i c H|s o f i c g k H|s o f i c r H|s o f i c e H]; subst; unfold inside in *; cbn [n_lock n_obj n_at backs flat_map app] in *; rewrite ?app_nil_r.
    - exists s1. split; auto. destruct o as [j|].
      + destruct Hi as (H1 & c' & p & H2 & H3). split.
        * intros k. rewrite move_at. destruct (Nat.eqb_spec k i); [tauto|apply H1].
        * exists c', p. rewrite move_at. destruct (Nat.eqb_spec j i); [congruence|auto].
      + destruct Hi as [H1 H2]. split; auto. intros k. rewrite move_at. destruct (Nat.eqb_spec k i); [tauto|apply H2].
    - exists s1. split; auto. destruct Hi as [-> H2]. split.
      + intros k. rewrite move_at. destruct (Nat.eqb_spec k i); auto. intros Hk. now apply H2 in Hk.
      + exists c, (body c). rewrite move_at, Nat.eqb_refl. split; auto. constructor.
    - exists s1. split; auto. destruct o as [j|].
      + destruct Hi as (H1 & c' & p & H2 & H3). assert (i = j) as -> by (apply H1; now rewrite H). split.
        * intros k0. rewrite move_at. destruct (Nat.eqb_spec k0 j); auto.
        * exists c, (k s). rewrite move_at, Nat.eqb_refl. split; auto. rewrite H2 in H. injection H as -> ->. now apply re_step.
      + destruct Hi as [_ H2]. specialize (H2 i). rewrite H in H2. tauto.
    - destruct o as [j|]; [|destruct Hi as [_ H2]; specialize (H2 i); rewrite H in H2; tauto].
      destruct Hi as (H1 & c' & p & H2 & H3). assert (i = j) as -> by (apply H1; now rewrite H). rewrite H2 in H. injection H as -> ->.
      exists s. split; [eapply se_snoc; [exact Hs|]; now rewrite <- (reaches_alone _ _ _ _ H3)|]. split; auto. intros k. rewrite move_at.
      destruct (Nat.eqb_spec k j); [tauto|]. intros Hk. apply H1 in Hk. contradiction.
    - destruct o as [j|]; [|destruct Hi as [_ H2]; specialize (H2 i); rewrite H in H2; tauto].
      destruct Hi as (H1 & c' & p & H2 & H3). assert (i = j) as -> by (apply H1; now rewrite H). rewrite H2 in H. injection H as -> ->.
      exists s. split; [eapply se_snoc; [exact Hs|]; now rewrite <- (reaches_alone _ _ _ _ H3)|]. split; auto. intros k. rewrite move_at.
      destruct (Nat.eqb_spec k j); [tauto|]. intros Hk. apply H1 in Hk. contradiction.
  Qed.
  Lemma run_minv ls s : run_to ls s -> minv ls s.
  Proof.
    intros H. remember (m_init S R call s0) as x eqn:Hx. induction H as [s|s ls s1 l s2 H IH Hst]; subst.
    - exists s0. split; [constructor|]. cbn. auto.
    - eapply minv_step; eauto.
  Qed.
  Lemma run_serial ls s : run_to ls s -> exists s1, serial body s0 (backs ls) s1 /\ (n_lock s = None -> n_obj s = s1).
  Proof. intros H. destruct (run_minv _ _ H) as (s1 & A & B). exists s1. split; auto. intros Hl. rewrite Hl in B. apply B. Qed.
  Lemma run_exclusive ls s i j : run_to ls s -> inside s i -> inside s j -> i = j.
  Proof.
    intros H Hi Hj. destruct (run_minv _ _ H) as (s1 & A & B). destruct (n_lock s).
    - destruct B as [B _]. apply B in Hi. apply B in Hj. congruence.
    - destruct B as [_ B]. now apply B in Hi.
  Qed.
  (** Within a call the object is where the calls that are over left it, plus some steps of the body. *)
  Lemma run_within ls s j : run_to ls s -> n_lock s = Some j ->
    exists s1 c p, serial body s0 (backs ls) s1 /\ n_at s j = In c p /\ reaches (body c) s1 p (n_obj s).
  Proof. intros H Hl. destruct (run_minv _ _ H) as (s1 & A & B). rewrite Hl in B. destruct B as (_ & c & p & B1 & B2). eauto 10. Qed.

  (** ** No deadlock *)
  (** Steps that are not new calls. *)
  Definition no_call (l : mlabel R call) : Prop := match l with NCall _ _ => False | _ => True end.
  Lemma mrun_app x ls y ls' z : mrun S R call body x ls y -> mrun S R call body y ls' z -> mrun S R call body x (ls ++ ls') z.
  Proof.
    intros H1 H2. induction H2 as [y|y ls' y1 l z H2 IH Hst]; [now rewrite app_nil_r|].
    rewrite app_assoc. econstructor; eauto.
  Qed.
  Lemma mrun_one x l y : mstep S R call body x l y -> mrun S R call body x [l] y.
  Proof. intros H. change [l] with ([] ++ [l])%list. econstructor; [constructor|exact H]. Qed.
  (** The thread in the body gets out of it, and the lock is free. *)
  Lemma finish_body c p : forall s o f i, f i = In c p -> exists ls s' r,
    mrun S R call body {| n_obj := s; n_lock := o; n_at := f |} ls s' /\ Forall no_call ls /\ List.In (NBack i c r) ls /\
    n_lock s' = None /\ n_at s' i = Out /\ forall j, j <> i -> n_at s' j = f j.
  Proof.
    induction p as [r|e|g k IH]; intros s o f i Hi.
    - eexists _, _, _. split; [apply mrun_one; eapply n_ret; eauto|]. split; [repeat constructor|]. split; [now left|].
      cbn [n_lock n_at]. rewrite move_at, Nat.eqb_refl. split; auto. split; auto. intros j Hj. rewrite move_at. destruct (Nat.eqb_spec j i); congruence.
    - eexists _, _, _. split; [apply mrun_one; eapply n_stop; eauto|]. split; [repeat constructor|]. split; [now left|].
      cbn [n_lock n_at]. rewrite move_at, Nat.eqb_refl. split; auto. split; auto. intros j Hj. rewrite move_at. destruct (Nat.eqb_spec j i); congruence.
    - destruct (IH s (g s) o (move S R call i (In c (k s)) f) i) as (ls & s' & r & H1 & H2 & H3 & H4 & H5 & H6).
      { now rewrite move_at, Nat.eqb_refl. }
      exists (NTau i :: ls), s', r. split; [change (NTau i :: ls) with ([NTau i] ++ ls)%list; eapply mrun_app; [apply mrun_one, n_step; eauto|exact H1]|].
      split; [repeat constructor; auto|]. split; [now right|]. split; auto. split; auto. intros j Hj. rewrite H6 by auto. rewrite move_at.
      destruct (Nat.eqb_spec j i); congruence.
  Qed.
  (** Whoever is in a function of the object can get out of it, without further calls. *)
  Lemma run_finish ls s i : run_to ls s -> n_at s i <> Out -> exists ls' s' c r,
    mrun S R call body s ls' s' /\ Forall no_call ls' /\ List.In (NBack i c r) ls' /\ n_at s' i = Out.
  Proof.
    intros H Hi. destruct (run_minv _ _ H) as (s1 & A & B). destruct s as [o l f]. cbn [n_lock n_obj n_at] in *.
    assert (forall o f, f i <> Out -> (forall c p, f i <> In c p) -> exists ls' s' c r,
      mrun S R call body {| n_obj := o; n_lock := None; n_at := f |} ls' s' /\ Forall no_call ls' /\ List.In (NBack i c r) ls' /\ n_at s' i = Out) as Take.
    { clear. intros o f Hi Hn. destruct (f i) as [|c|c p] eqn:Hf; [congruence| |exfalso; now apply (Hn c p)].
      destruct (finish_body c (body c) o (Some i) (move S R call i (In c (body c)) f) i) as (ls & s' & r & H1 & H2 & H3 & H4 & H5 & H6).
      { now rewrite move_at, Nat.eqb_refl. }
      exists (NTake i c :: ls), s', c, r. split; [change (NTake i c :: ls) with ([NTake i c] ++ ls)%list; eapply mrun_app; [apply mrun_one, n_take; eauto|exact H1]|].
      split; [repeat constructor; auto|]. split; [now right|auto]. }
    destruct l as [j|].
    - destruct B as (B & c & p & Hp & _). destruct (finish_body c p o (Some j) f j Hp) as (ls1 & s2 & r & H1 & H2 & H3 & H4 & H5 & H6).
      destruct (Nat.eq_dec i j) as [->|Hn]; [exists ls1, s2, c, r; auto|].
      destruct s2 as [o2 l2 f2]. cbn [n_lock n_at] in *. subst l2. destruct (Take o2 f2) as (ls2 & s3 & c3 & r3 & T1 & T2 & T3 & T4).
      { now rewrite H6. }
      { intros c' p' E. rewrite H6 in E by auto. apply Hn, B. unfold inside. cbn [n_at]. now rewrite E. }
      exists (ls1 ++ ls2)%list, s3, c3, r3. split; [eapply mrun_app; eauto|]. split; [apply Forall_app; auto|]. split; auto. apply in_or_app. auto.
    - destruct B as [_ B]. apply Take; auto. intros c p E. apply (B i). unfold inside. cbn [n_at]. now rewrite E.
  Qed.
  Lemma in_backs i c r ls : List.In (NBack i c r) ls -> List.In (c, r) (backs ls : list (call * (R + exn))).
  Proof. intros H. apply in_flat_map. exists (NBack i c r). split; auto. now left. Qed.
  Lemma serial_each (P : call -> R + exn -> Prop) cs s : (forall c s, P c (snd (alone _ _ (body c) s))) -> serial body s0 cs s ->
    forall c r, List.In (c, r) cs -> P c r.
  Proof.
    intros HP H. induction H as [|cs s1 c r s2 H IH Ha]; intros c' r' Hin; [destruct Hin|].
    apply in_app_or in Hin as [Hin|[[= <- <-]|[]]]; auto. specialize (HP c s1). now rewrite Ha in HP.
  Qed.
End Proofs.

(** ** Signatures *)
Section Hmac.
  Context (C : crypto) (scheme key : string).
  (** What a call is to return. *)
  Definition right (c : acall) (r : aresult + exn) : Prop :=
    match c with
    | Sign h p m t => r = inl (Signature (Ok (sign C (HmacAuth scheme key) h p m t)))
    | Verify sig h p m t => r = inl (Verdict (verify C (HmacAuth scheme key) sig h p m t))
    end.
  Lemma body_right c s : right c (snd (alone _ _ (auth_body C scheme key c) s)).
  Proof.
    destruct c as [h p m t|sig h p m t]; cbn; unfold digest; rewrite ?sapp_nil_l, <- ?sapp_assoc; reflexivity.
  Qed.
  Lemma calls_right s0 ls s i c r : mrun _ _ _ (auth_body C scheme key) (m_init _ _ _ s0) ls s -> List.In (NBack i c r) ls -> right c r.
  Proof.
    intros H Hin. destruct (run_serial _ _ _ _ H) as (s1 & Hs & _). eapply serial_each; [exact body_right|exact Hs|eapply in_backs; eauto].
  Qed.
End Hmac.

(** ** The texts of the loggers *)
Lemma chop_all cuts : forall t, sconcat (chop cuts t) = t.
Proof. induction cuts as [|n cuts IH]; intros t; cbn [chop sconcat]; [apply sapp_nil_r|]. now rewrite IH, stake_sdrop. Qed.
Lemma l_write_alone {R} ps (k : code string R) : forall s, alone _ _ (l_write ps k) s = alone _ _ k (s +++ sconcat ps).
Proof. induction ps as [|p ps IH]; intros s; cbn [l_write alone sconcat]; [now rewrite sapp_nil_r|]. now rewrite IH, sapp_assoc. Qed.
Lemma l_write_reaches ps s p s' : reaches (l_write ps (CRet tt)) s p s' ->
  exists done rest, ps = (done ++ rest)%list /\ s' = s +++ sconcat done /\ p = l_write rest (CRet tt).
Proof.
  induction 1 as [|f k s' H (done & rest & -> & -> & E)].
  - exists [], ps. cbn. now rewrite sapp_nil_r.
  - destruct rest as [|x rest]; [discriminate|]. cbn [l_write] in E. injection E as -> ->.
    exists (done ++ [x])%list, rest. rewrite <- app_assoc, sconcat_app. cbn. now rewrite sapp_nil_r, sapp_assoc.
Qed.

Lemma stop_reaches {S R} e s (p : code S R) s' : reaches (CStop e) s p s' -> p = CStop e /\ s' = s.
Proof. induction 1 as [|f k s' H [E _]]; [auto|discriminate]. Qed.
(** The text of a call in a file: the record and a line break; nothing if the record has no text. *)
Definition file_text (c : lcall) : string := match pretty (l_log c) with Ok t => t +++ newline | _ => "" end.
Definition file_result (c : lcall) : unit + exn := match pretty (l_log c) with Ok _ => inl tt | _ => inr type_error_316 end.
Lemma pretty_cases j : (exists t, pretty j = Ok t) \/ pretty j = Exn type_error_316.
Proof. unfold pretty. destruct (pretty_opt 0 j); eauto. Qed.
Lemma file_alone c s : alone _ _ (file_body c) s = (s +++ file_text c, file_result c).
Proof.
  unfold file_body, file_text, file_result. destruct (pretty_cases (l_log c)) as [[t ->]| ->].
  - rewrite l_write_alone, chop_all. reflexivity.
  - cbn. now rewrite sapp_nil_r.
Qed.
Lemma file_serial s0 cs s : serial file_body s0 cs s ->
  s = s0 +++ sconcat (map (fun x => file_text (fst x)) cs) /\ Forall (fun x => snd x = file_result (fst x)) cs.
Proof.
  induction 1 as [|cs s1 c r s2 H [-> IH] Ha]; [cbn; now rewrite sapp_nil_r|].
  rewrite file_alone in Ha. injection Ha as <- <-. rewrite map_app, sconcat_app. cbn [map sconcat fst]. rewrite sapp_nil_r, sapp_assoc.
  split; auto. apply Forall_app. split; auto.
Qed.
(** The text of a call on the console. *)
Definition console_text (early : bool) (c : lcall) : string :=
  match pretty (l_message c) with
  | Ok t => l_info c +++ newline +++ t +++ newline
  | _ => if early then l_info c +++ newline else ""
  end.
Definition console_result (c : lcall) : unit + exn := match pretty (l_message c) with Ok _ => inl tt | _ => inr type_error_316 end.
Lemma console_alone early c s : alone _ _ (console_body early c) s = (s +++ console_text early c, console_result c).
Proof.
  unfold console_body, console_text, console_result. destruct (pretty_cases (l_message c)) as [[t ->]| ->], early; cbv beta iota zeta;
    rewrite ?l_write_alone, ?chop_all; cbn [alone]; rewrite ?sapp_assoc, ?sapp_nil_r; reflexivity.
Qed.
Lemma console_serial early s0 cs s : serial (console_body early) s0 cs s ->
  s = s0 +++ sconcat (map (fun x => console_text early (fst x)) cs) /\ Forall (fun x => snd x = console_result (fst x)) cs.
Proof.
  induction 1 as [|cs s1 c r s2 H [-> IH] Ha]; [cbn; now rewrite sapp_nil_r|].
  rewrite console_alone in Ha. injection Ha as <- <-. rewrite map_app, sconcat_app. cbn [map sconcat fst]. rewrite sapp_nil_r, sapp_assoc.
  split; auto. apply Forall_app. split; auto.
Qed.

(** ** Reading a log file *)
(** The text is these values one after the other, with white space between and behind them, as read by
    [nl::json]'s operator>> until the end. *)
Inductive reads : string -> list json -> Prop :=
| rd_end s : skip_ws s = "" -> reads s []
| rd_one s n j r js : pval n s = Some (j, r) -> reads r js -> reads s (j :: js).
Lemma reads_ws s s' js : skip_ws s = skip_ws s' -> reads s js -> reads s' js.
Proof.
  intros E H. destruct H as [s H|s n j r js H1 H2].
  - constructor. congruence.
  - econstructor; [|exact H2]. rewrite <- H1. symmetry. now apply pval_ws.
Qed.
Lemma good_log c : jgood (l_message c) = true -> jgood (l_log c) = true.
Proof. unfold jgood, l_log. cbn. intros H. apply andb_true_iff in H as [-> ->]. reflexivity. Qed.
Definition logged_calls (cs : list (lcall * (unit + exn))) : list lcall :=
  flat_map (fun x => match snd x with inl _ => [fst x] | inr _ => [] end) cs.
Lemma reads_records cs : Forall (fun x => snd x = file_result (fst x)) cs -> Forall (fun c => jgood (l_message c) = true) (logged_calls cs) ->
  reads (sconcat (map (fun x => file_text (fst x)) cs)) (map l_log (logged_calls cs)).
Proof.
  induction 1 as [|[c r] cs H Hcs IH]; [constructor; reflexivity|]. cbn [map sconcat fst snd logged_calls flat_map] in *. subst r.
  unfold file_result, file_text. destruct (pretty_cases (l_log c)) as [[t Ht]|Ht]; rewrite Ht; cbn [app map].
  - intros Hg. inversion Hg as [|? ? G1 G2]; subst. unfold pretty in Ht. destruct (pretty_opt 0 (l_log c)) as [t'|] eqn:Et; [|discriminate]. injection Ht as ->.
    destruct (pretty_pval (l_log c) 0 t (newline +++ sconcat (map (fun x => file_text (fst x)) cs)) (good_log _ G1) Et eq_refl) as [N HN].
    econstructor; [rewrite sapp_assoc; apply (HN N); lia|]. eapply reads_ws; [|apply IH; exact G2]. symmetry. apply skip_newline.
  - intros Hg. cbn. auto.
Qed.
Lemma pval_one n m s x y : pval n s = Some x -> pval m s = Some y -> x = y.
Proof.
  intros H1 H2. apply (pval_more n (Nat.max n m)) in H1; [|lia]. apply (pval_more m (Nat.max n m)) in H2; [|lia]. congruence.
Qed.
Lemma pval_end n s : skip_ws s = "" -> pval n s = None.
Proof. intros H. destruct n as [|n]; auto. cbn [pval]. now rewrite H. Qed.
Lemma reads_fun s js : reads s js -> forall js', reads s js' -> js = js'.
Proof.
  induction 1 as [s H|s n j r js H1 H2 IH]; intros js' H'; inversion H' as [s' E|s' n' j' r' js'' E1 E2]; subst; auto.
  - now rewrite (pval_end n' s H) in E1.
  - now rewrite (pval_end n s E) in H1.
  - pose proof (pval_one _ _ _ _ _ H1 E1) as [= <- <-]. f_equal. auto.
Qed.
(** The message of a log record, from a message whose parts are good values. *)
Lemma at_level_good l header parent meta content m :
  jgood header = true -> jgood parent = true -> jgood meta = true -> jgood content = true ->
  at_level l header parent meta content = Ok m -> jgood m = true.
Proof.
  unfold jgood. rewrite !andb_true_iff. intros [A1 A2] [B1 B2] [C1 C2] [D1 D2] E. unfold at_level in E. destruct (value_string "msg_type" "" header) as [t| |]; try discriminate. cbn [bind] in E. injection E as <-.
  destruct l; unfold jobj; cbn [fold_left fst snd mset]; cbv [String.compare Ascii.compare]; rewrite jwf_obj, jfinite_obj; cbn;
  rewrite ?A1, ?A2, ?B1, ?B2, ?C1, ?C2, ?D1, ?D2; auto.
Qed.

(** ** Running the threads *)
Section Exec.
  Context {S R call : Type} (body : call -> code S R).
  (** The next step of thread [i]; outside of the object it makes the call given, if any. *)
  Definition mnext (i : nat) (c : option call) (x : msys S R call) : option (mlabel R call * msys S R call) :=
    let go o l p := {| n_obj := o; n_lock := l; n_at := move S R call i p (n_at x) |} in
    match n_at x i with
    | Out => match c with Some c => Some (NCall i c, go (n_obj x) (n_lock x) (Wait c)) | None => None end
    | Wait c => match n_lock x with None => Some (NTake i c, go (n_obj x) (Some i) (In c (body c))) | Some _ => None end
    | In c (CStep f k) => Some (NTau i, go (f (n_obj x)) (n_lock x) (In c (k (n_obj x))))
    | In c (CRet r) => Some (NBack i c (inl r), go (n_obj x) None Out)
    | In c (CStop e) => Some (NBack i c (inr e), go (n_obj x) None Out)
    end.
  (** Threads that cannot go on are left out. *)
  Fixpoint mexec (plan : list (nat * option call)) (x : msys S R call) : list (mlabel R call) * msys S R call :=
    match plan with
    | [] => ([], x)
    | (i, c) :: plan =>
        match mnext i c x with
        | Some (l, y) => let (ls, z) := mexec plan y in (l :: ls, z)
        | None => mexec plan x
        end
    end.
  Lemma mnext_step i c x l y : mnext i c x = Some (l, y) -> mstep S R call body x l y.
  Proof.
    unfold mnext. destruct x as [o lk f]. cbn [n_obj n_lock n_at]. intros H. destruct (f i) as [|d|d [r|e|g k]] eqn:E.
    - destruct c; [|discriminate]. injection H as <- <-. now constructor.
    - destruct lk; [discriminate|]. injection H as <- <-. now constructor.
    - injection H as <- <-. now constructor.
    - injection H as <- <-. now constructor.
    - injection H as <- <-. now constructor.
  Qed.
  Lemma mexec_run plan : forall x, mrun S R call body x (fst (mexec plan x)) (snd (mexec plan x)).
  Proof.
    induction plan as [|[i c] plan IH]; intros x; cbn [mexec]; [constructor|].
    destruct (mnext i c x) as [[l y]|] eqn:E; auto. specialize (IH y). destruct (mexec plan y) as [ls z]. cbn [fst snd] in *.
    change (l :: ls) with ([l] ++ ls)%list. eapply mrun_app; [apply mrun_one; eapply mnext_step; eauto|exact IH].
  Qed.
End Exec.
