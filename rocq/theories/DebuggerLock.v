(** The debugger sends one message at a time. *)
From Verif Require Import Base BaseFacts Json JsonText JsonTextProofs Auth Message MessageProofs Dap DapSpec DapProofs DapQueue DapMain Debugger DebuggerSpec DebuggerProofs DebuggerState DebuggerRequests.

Fixpoint phase (w : bool) (l : list dact) : option bool :=
  match l with
  | [] => Some w
  | DSend _ _ :: r => if w then None else phase true r
  | DHeader _ :: r => if w then None else phase false r
  | DRecv _ :: r => if w then phase false r else None
  | DStart _ :: r | DStop :: r => if w then None else phase false r
  | DEvent _ :: r => phase w r
  end.
Lemma phase_app a : forall w b, phase w (a ++ b) = match phase w a with Some w' => phase w' b | None => None end.
Proof. induction a as [|x a IH]; intros w b; cbn [phase app]; auto. destruct x; auto; destruct w; auto. Qed.
Lemma phase_events s : forall w, Forall is_event s -> phase w s = Some w.
Proof. induction s as [|x s IH]; intros w H; auto. inversion H; subst. destruct x; try easy. cbn. auto. Qed.
Lemma phase_recv b : forall y c, phase true (b ++ y :: c) <> None -> to_adapter y -> exists t, In (DRecv t) b.
Proof.
  induction b as [|x b IH]; intros y c H Y; cbn in H.
  - destruct y; cbn in Y; try easy; now elim H.
  - destruct x; try (now elim H); try (destruct (IH _ _ H Y) as [t Ht]; exists t; now right). exists text. now left.
Qed.
Lemma phase_sent a : forall w, phase w a = Some true -> (w = true /\ forall t, ~ In (DRecv t) a) \/ exists a' m f b, a = (a' ++ DSend m f :: b)%list /\ forall t, ~ In (DRecv t) b.
Proof.
  induction a as [|x a IH]; intros w H; cbn in H; [injection H as ->; left; auto|].
  assert (K : forall w', phase w' a = Some true -> (forall t, x <> DRecv t) -> (w' = true -> w = true \/ exists m f, x = DSend m f) ->
    (w = true /\ forall t, ~ In (DRecv t) (x :: a)) \/ exists a' m f b, (x :: a)%list = (a' ++ DSend m f :: b)%list /\ forall t, ~ In (DRecv t) b).
  { intros w' P Nx Hw. destruct (IH _ P) as [[W N]|(a' & m & f & b & -> & N)].
    - destruct (Hw W) as [->|(m & f & ->)]; [left; split; auto; intros t [T|T]; [now elim (Nx t)|now elim (N t)]|]. right. exists [], m, f, a. auto.
    - right. exists (x :: a')%list, m, f, b. auto. }
  destruct x; try (apply (K w); [exact H|discriminate|auto]).
  - destruct w; [discriminate|]. apply (K false); [exact H|discriminate|discriminate].
  - destruct w; [discriminate|]. apply (K true); [exact H|discriminate|eauto].
  - destruct w; [|discriminate]. destruct (IH _ H) as [[W _]|(a' & m & f & b & -> & N)]; [discriminate|]. right. exists (DRecv text :: a')%list, m, f, b. auto.
  - destruct w; [discriminate|]. apply (K false); [exact H|discriminate|discriminate].
  - destruct w; [discriminate|]. apply (K false); [exact H|discriminate|discriminate].
Qed.
Lemma phase_one l : phase false l <> None -> one_at_a_time l.
Proof.
  intros H. split.
  - intros a x b y c -> X Y. rewrite phase_app in H. destruct (phase false a) as [w|]; [|now elim H]. destruct x; try easy. cbn [phase] in H. destruct w; [now elim H|].
    eapply phase_recv; eauto.
  - intros a t c ->. rewrite phase_app in H. destruct (phase false a) as [w|] eqn:P; [|now elim H]. cbn [phase] in H. destruct w; [|now elim H].
    destruct (phase_sent _ _ P) as [[W _]|H1]; [discriminate|exact H1].
Qed.

Definition locked {A} (p : G A) : Prop := forall d d' o, p d = (d', o) -> (forall w, o <> Undef w) -> phase false (d_log d) = Some false ->
  phase false (d_log d') = Some false \/ o = Waits /\ phase false (d_log d') = Some true.
Lemma locked_bind {A B} (p : G A) (f : A -> G B) : locked p -> (forall a, locked (f a)) -> locked (gbind p f).
Proof.
  intros Hp Hf d d' o. unfold gbind. destruct (p d) as [d1 o1] eqn:R. intros R2 Ho P. destruct o1 as [a|e|w|].
  - destruct (Hp _ _ _ R ltac:(discriminate) P) as [P1|[X _]]; [|discriminate]. exact (Hf a _ _ _ R2 Ho P1).
  - injection R2 as <- <-. destruct (Hp _ _ _ R ltac:(discriminate) P) as [P1|[X _]]; [auto|discriminate].
  - injection R2 as <- <-. now elim (Ho w).
  - injection R2 as <- <-. destruct (Hp _ _ _ R ltac:(discriminate) P) as [P1|[X P1]]; auto.
Qed.
Definition quiet (a : dact) : Prop := match a with DSend _ _ | DRecv _ => False | _ => True end.
Lemma phase_quiet s : Forall quiet s -> phase false s = Some false.
Proof. induction 1 as [|x s H F IH]; auto. destruct x; try easy; exact IH. Qed.
Lemma locked_adds {A} (p : G A) : adds quiet p -> locked p.
Proof. intros H d d' o R _ P. destruct (H _ _ _ R) as (s & -> & F). left. rewrite phase_app, P. now apply phase_quiet. Qed.
Lemma locked_lift {A} (r : res A) : locked (glift r).
Proof. apply locked_adds, adds_lift. Qed.
Lemma locked_ret {A} (a : A) : locked (gret a).
Proof. apply locked_adds, adds_ret. Qed.
Lemma locked_forward E m : locked (forward_message E m).
Proof.
  apply locked_bind; [apply locked_lift|intros t]. intros d d' o R Ho P. unfold gbind at 1, gmod at 1 in R. change (await E (dlog (DSend m (dap_frame t)) d) = (d', o)) in R.
  assert (P1 : phase false (d_log (dlog (DSend m (dap_frame t)) d)) = Some true) by (cbn; rewrite phase_app, P; reflexivity).
  revert R P1. generalize (dlog (DSend m (dap_frame t)) d). clear d P. intros d R P. unfold await in R. destruct (dn_reply E (d_log d)) as [evs ans].
  unfold gbind at 1 in R. destruct (deliver E evs d) as [d1 o1] eqn:D. destruct (adds_deliver E evs _ _ _ D) as (s & L & F).
  assert (P1 : phase false (d_log d1) = Some true) by (rewrite L, phase_app, P; now apply phase_events).
  assert (Od : forall e, o1 <> Fail e) by (clear -D; intros e ->; revert d D; induction evs as [|j l IH]; cbn [deliver]; intros d D; [discriminate|]; destruct (handle_debug_event E j _); [eauto|eauto|discriminate]).
  destruct o1 as [[]|e|w|]; [|now elim (Od e)|injection R as <- <-; now elim (Ho w)|injection R as <- <-; auto].
  destruct ans as [text|].
  - unfold gbind, gmod, glift in R. injection R as <- <-. left. cbn. rewrite phase_app, P1. reflexivity.
  - injection R as <- <-. auto.
Qed.
Lemma locked_user E p : locked (run_user E p).
Proof. induction p as [j|e|j k IH]; cbn; [apply locked_ret|apply locked_adds; now apply adds_same|]. apply locked_bind; [apply locked_forward|auto]. Qed.
Lemma event_quiet a : is_event a -> quiet a.
Proof. destruct a; cbn; auto. Qed.
Lemma locked_handler E b name k m : mfind name (handlers E b) = Some k -> locked (k m).
Proof.
  intros H. apply handlers_find in H as [(p & _ & ->)|H]; [apply locked_user|]. unfold builtin in H.
  destruct b.
  - destruct (String.eqb name "variables"); [injection H as <-; apply locked_bind; [apply locked_forward|intros r; apply locked_lift]|].
    destruct (String.eqb name "stackTrace"); [injection H as <-; apply locked_bind; [apply locked_forward|intros r; apply locked_lift]|].
    destruct (String.eqb name "source"); [injection H as <-|].
    { apply locked_bind; [apply locked_lift|intros p]. apply locked_adds, adds_same. intros d. destruct (open_in (d_fs d) p); reflexivity. }
    destruct (String.eqb name "setBreakpoints"); [injection H as <-|].
    { apply locked_bind; [apply locked_lift|intros src]. apply locked_bind; [now apply locked_adds, adds_same|intros _]. apply locked_bind; [apply locked_lift|intros v].
      apply locked_bind; [now apply locked_adds, adds_same|intros _]. apply locked_forward. }
    destruct (String.eqb name "dumpCell"); [injection H as <-|discriminate].
    apply locked_bind; [apply locked_lift|intros c]. apply locked_bind; [apply locked_lift|intros f]. apply locked_bind; [|intros _; apply locked_lift].
    apply locked_adds, adds_same. intros d. cbn. destruct (open_in (d_fs d) f); reflexivity.
  - destruct (String.eqb name "debugInfo"); [injection H as <-|discriminate]. apply locked_adds, adds_same. reflexivity.
Qed.
Lemma quiet_start E m : adds quiet (do_start E m).
Proof.
  intros d d' o. unfold do_start. destruct (d_started d); [intros [= <- _]; exists []; rewrite app_nil_r; auto|]. destruct (dn_start E (d_log d)) as [evs r].
  revert d d' o. match goal with |- forall d d' o, ?p d = _ -> _ => change (adds quiet p) end.
  apply adds_bind; [eapply adds_weak; [apply event_quiet|apply adds_deliver]|intros _]. apply adds_bind; [apply adds_lift|intros ok].
  apply adds_bind; [|intros _; destruct ok; [apply adds_ret|apply adds_lift]].
  intros d d' o [= <- _]. exists [DStart ok]. split; auto. constructor; [exact I|constructor].
Qed.
Lemma quiet_stop E : adds quiet (do_stop E).
Proof.
  intros d d' o. unfold do_stop. destruct (dn_stop E (d_log d)) as [evs r]. revert d d' o. match goal with |- forall d d' o, ?p d = _ -> _ => change (adds quiet p) end.
  apply adds_bind; [eapply adds_weak; [apply event_quiet|apply adds_deliver]|intros _]. apply adds_bind; [apply adds_lift|intros _].
  intros d d' o [= <- _]. exists [DStop]. split; auto. constructor; [exact I|constructor].
Qed.
Lemma quiet_header E h : adds quiet (send_header E h).
Proof.
  apply adds_bind; [apply adds_lift|intros t]. apply adds_bind; [apply adds_log; exact I|intros _].
  intros d d' o. destruct (dn_ack E (d_log d)) as [evs ok]. revert d d' o. match goal with |- forall d d' o, ?p d = _ -> _ => change (adds quiet p) end.
  apply adds_bind; [eapply adds_weak; [apply event_quiet|apply adds_deliver]|intros _]. destruct ok; [apply adds_ret|now apply adds_same].
Qed.
Lemma locked_process E h m : locked (process_request E h m).
Proof.
  apply locked_bind; [apply locked_lift|intros cmd]. apply locked_bind; [destruct (json_eqb cmd _); [apply locked_adds, quiet_start|apply locked_ret]|intros reply].
  apply locked_bind; [apply locked_lift|intros name]. apply locked_bind; [|intros r; apply locked_bind; [destruct (json_eqb cmd _); [apply locked_adds, quiet_stop|apply locked_ret]|intros _; apply locked_ret]].
  destruct (mfind name (handlers E false)) as [k|] eqn:H; [eapply locked_handler; eauto|].
  intros d d' o. destruct (d_started d); [|intros [= <- _] _ P; auto]. revert d d' o. match goal with |- forall d d' o, ?p d = _ -> _ => change (locked p) end.
  apply locked_bind; [apply locked_adds, quiet_header|intros _]. destruct (mfind name (handlers E true)) eqn:Ht; [eapply locked_handler; eauto|apply locked_forward].
Qed.
Theorem locked_history E d l d' : phase false (d_log d) = Some false -> history E d l d' -> phase false (d_log d') <> None.
Proof.
  intros P R. induction R as [|d h m d1 r l d2 Q R IH|d h m d1 e l d2 Q R IH|d h m d1 Q|d evs d1 l d2 Q R IH|d fs l d1 R IH].
  - congruence.
  - apply IH. destruct (locked_process E h m _ _ _ Q ltac:(discriminate) P) as [H|[H _]]; [auto|discriminate].
  - apply IH. destruct (locked_process E h m _ _ _ Q ltac:(discriminate) P) as [H|[H _]]; [auto|discriminate].
  - destruct (locked_process E h m _ _ _ Q ltac:(discriminate) P) as [H|[_ H]]; congruence.
  - apply IH. destruct (adds_deliver E evs _ _ _ Q) as (s & -> & F). rewrite phase_app, P. now apply phase_events.
  - apply IH. exact P.
Qed.
