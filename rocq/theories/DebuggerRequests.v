(** The requests of the debugger one by one. *)
From Verif Require Import Base BaseFacts Json JsonText JsonTextProofs Auth Message MessageProofs Dap DapSpec DapProofs DapQueue DapMain Debugger DebuggerSpec DebuggerProofs DebuggerState.

(** ** What a step appends to the log *)
Definition adds {A} (P : dact -> Prop) (p : G A) : Prop := forall d d' o, p d = (d', o) -> exists s, d_log d' = (d_log d ++ s)%list /\ Forall P s.
Lemma adds_same {A} P (p : G A) : (forall d, d_log (fst (p d)) = d_log d) -> adds P p.
Proof. intros H d d' o R. specialize (H d). rewrite R in H. exists []. rewrite app_nil_r. auto. Qed.
Lemma adds_bind {A B} P (p : G A) (f : A -> G B) : adds P p -> (forall a, adds P (f a)) -> adds P (gbind p f).
Proof.
  intros Hp Hf d d' o. unfold gbind. destruct (p d) as [d1 o1] eqn:R. destruct (Hp _ _ _ R) as (s & L & F).
  destruct o1; [|intros [= <- _]; eauto|intros [= <- _]; eauto|intros [= <- _]; eauto].
  intros R2. destruct (Hf _ _ _ _ R2) as (s2 & L2 & F2). exists (s ++ s2)%list. rewrite L2, L, app_assoc. split; auto. now apply Forall_app.
Qed.
Lemma adds_lift {A} P (r : res A) : adds P (glift r).
Proof. now apply adds_same. Qed.
Lemma adds_ret {A} P (a : A) : adds P (gret a).
Proof. now apply adds_same. Qed.
Lemma adds_log (P : dact -> Prop) a : P a -> adds P (gmod (dlog a)).
Proof. intros H d d' o [= <- _]. exists [a]. split; auto. Qed.
Lemma adds_weak {A} (P Q : dact -> Prop) (p : G A) : (forall a, P a -> Q a) -> adds P p -> adds Q p.
Proof. intros H Hp d d' o R. destruct (Hp _ _ _ R) as (s & L & F). exists s. split; auto. eapply Forall_impl; eauto. Qed.
Lemma handle_event_log E j d d' : handle_debug_event E j d = Ok d' -> d_log d' = d_log d.
Proof. intros H. apply handle_event_shape in H as [th ->]. reflexivity. Qed.
Definition is_event (a : dact) : Prop := match a with DEvent _ => True | _ => False end.
Lemma adds_deliver E l : adds is_event (deliver E l).
Proof.
  induction l as [|j l IH]; intros d d' o; cbn [deliver]; [intros [= <- _]; exists []; rewrite app_nil_r; auto|].
  destruct (handle_debug_event E j (dlog (DEvent j) d)) as [d1|e|w] eqn:H.
  - intros R. destruct (IH _ _ _ R) as (s & L & F). exists (DEvent j :: s). rewrite L, (handle_event_log _ _ _ _ H). cbn. rewrite <- app_assoc. split; auto. now constructor.
  - intros R. destruct (IH _ _ _ R) as (s & L & F). exists (DEvent j :: s). rewrite L. cbn. rewrite <- app_assoc. split; auto. now constructor.
  - intros [= <- _]. exists [DEvent j]. split; auto. repeat constructor.
Qed.
Definition not_header (a : dact) : Prop := ~ is_header a.
Definition no_adapter (a : dact) : Prop := ~ to_adapter a.
Lemma event_not_header a : is_event a -> not_header a.
Proof. destruct a; cbn; unfold not_header; cbn; auto. Qed.
Lemma event_no_adapter a : is_event a -> no_adapter a.
Proof. destruct a; cbn; unfold no_adapter; cbn; auto. Qed.
Lemma adds_await E : adds not_header (await E).
Proof.
  intros d d' o. unfold await. destruct (dn_reply E (d_log d)) as [evs ans]. revert d d' o. change (adds not_header
    (go* _ := deliver E evs in match ans with None => fun d => (d, Waits) | Some text => go* _ := gmod (dlog (DRecv text)) in glift (parse text) end)).
  apply adds_bind; [eapply adds_weak; [apply event_not_header|apply adds_deliver]|intros _]. destruct ans; [|now apply adds_same].
  apply adds_bind; [apply adds_log; unfold not_header; auto|intros _; apply adds_lift].
Qed.
Lemma adds_forward E m : adds not_header (forward_message E m).
Proof.
  apply adds_bind; [apply adds_lift|intros t]. apply adds_bind; [apply adds_log; unfold not_header; auto|intros _]. apply adds_await.
Qed.
Lemma adds_user E p : adds not_header (run_user E p).
Proof. induction p as [j|e|j k IH]; cbn; [apply adds_ret|now apply adds_same|]. apply adds_bind; [apply adds_forward|auto]. Qed.
Lemma adds_stop E : adds no_adapter (do_stop E).
Proof.
  intros d d' o. unfold do_stop. destruct (dn_stop E (d_log d)) as [evs r]. revert d d' o. match goal with |- forall d d' o, ?p d = _ -> _ => change (adds no_adapter p) end.
  apply adds_bind; [eapply adds_weak; [apply event_no_adapter|apply adds_deliver]|intros _]. apply adds_bind; [apply adds_lift|intros _].
  intros d d' o [= <- _]. exists [DStop]. split; auto. constructor; [unfold no_adapter; auto|constructor].
Qed.
Lemma adds_start E m : adds no_adapter (do_start E m).
Proof.
  intros d d' o. unfold do_start. destruct (d_started d); [intros [= <- _]; exists []; rewrite app_nil_r; auto|]. destruct (dn_start E (d_log d)) as [evs r].
  revert d d' o. match goal with |- forall d d' o, ?p d = _ -> _ => change (adds no_adapter p) end.
  apply adds_bind; [eapply adds_weak; [apply event_no_adapter|apply adds_deliver]|intros _]. apply adds_bind; [apply adds_lift|intros ok].
  apply adds_bind; [|intros _; destruct ok; [apply adds_ret|apply adds_lift]].
  intros d d' o [= <- _]. exists [DStart ok]. split; auto. constructor; [unfold no_adapter; auto|constructor].
Qed.
Lemma adds_handler E b name k m : mfind name (handlers E b) = Some k -> adds not_header (k m).
Proof.
  intros H. apply handlers_find in H as [(p & _ & ->)|H]; [apply adds_user|]. unfold builtin in H.
  destruct b.
  - destruct (String.eqb name "variables"); [injection H as <-; apply adds_bind; [apply adds_forward|intros r; apply adds_lift]|].
    destruct (String.eqb name "stackTrace"); [injection H as <-; apply adds_bind; [apply adds_forward|intros r; apply adds_lift]|].
    destruct (String.eqb name "source"); [injection H as <-|].
    { apply adds_bind; [apply adds_lift|intros p]. apply adds_same. intros d. destruct (open_in (d_fs d) p); reflexivity. }
    destruct (String.eqb name "setBreakpoints"); [injection H as <-|].
    { apply adds_bind; [apply adds_lift|intros src]. apply adds_bind; [now apply adds_same|intros _]. apply adds_bind; [apply adds_lift|intros v].
      apply adds_bind; [now apply adds_same|intros _]. apply adds_forward. }
    destruct (String.eqb name "dumpCell"); [injection H as <-|discriminate].
    apply adds_bind; [apply adds_lift|intros c]. apply adds_bind; [apply adds_lift|intros f]. apply adds_bind; [|intros _; apply adds_lift].
    apply adds_same. intros d. cbn. destruct (open_in (d_fs d) f); reflexivity.
  - destruct (String.eqb name "debugInfo"); [injection H as <-|discriminate]. apply adds_same. reflexivity.
Qed.

(** ** The header comes first *)
Definition header_first (h : json) (s : list dact) : Prop :=
  Forall no_adapter s \/ exists pre t rest, s = (pre ++ DHeader t :: rest)%list /\ Forall no_adapter pre /\ dump EStrict h = Ok t /\ Forall not_header rest.
Lemma no_adapter_not_header a : no_adapter a -> not_header a.
Proof. destruct a; unfold no_adapter, not_header; cbn; tauto. Qed.
Lemma first_then h s s2 : header_first h s -> Forall no_adapter s2 -> header_first h (s ++ s2).
Proof.
  intros [H|(pre & t & rest & -> & H1 & H2 & H3)] F; [left; now apply Forall_app|]. right. exists pre, t, (rest ++ s2)%list. rewrite <- app_assoc. repeat split; auto.
  apply Forall_app. split; auto. eapply Forall_impl; [apply no_adapter_not_header|exact F].
Qed.
Lemma then_first h s s2 : Forall no_adapter s -> header_first h s2 -> header_first h (s ++ s2).
Proof.
  intros F [H|(pre & t & rest & -> & H1 & H2 & H3)]; [left; now apply Forall_app|]. right. exists (s ++ pre)%list, t, rest. rewrite app_assoc. repeat split; auto.
  now apply Forall_app.
Qed.
Definition heads {A} (h : json) (p : G A) : Prop := forall d d' o, p d = (d', o) -> exists s, d_log d' = (d_log d ++ s)%list /\ header_first h s.
Lemma heads_adds {A} h (p : G A) : adds no_adapter p -> heads h p.
Proof. intros H d d' o R. destruct (H _ _ _ R) as (s & L & F). exists s. split; auto. now left. Qed.
Lemma heads_before {A B} h (p : G A) (f : A -> G B) : adds no_adapter p -> (forall a, heads h (f a)) -> heads h (gbind p f).
Proof.
  intros Hp Hf d d' o. unfold gbind. destruct (p d) as [d1 o1] eqn:R. destruct (Hp _ _ _ R) as (s & L & F).
  destruct o1; [|intros [= <- _]; exists s; split; auto; now left|intros [= <- _]; exists s; split; auto; now left|intros [= <- _]; exists s; split; auto; now left].
  intros R2. destruct (Hf _ _ _ _ R2) as (s2 & L2 & F2). exists (s ++ s2)%list. rewrite L2, L, app_assoc. split; auto. now apply then_first.
Qed.
Lemma heads_after {A B} h (p : G A) (f : A -> G B) : heads h p -> (forall a, adds no_adapter (f a)) -> heads h (gbind p f).
Proof.
  intros Hp Hf d d' o. unfold gbind. destruct (p d) as [d1 o1] eqn:R. destruct (Hp _ _ _ R) as (s & L & F).
  destruct o1; [|intros [= <- _]; eauto|intros [= <- _]; eauto|intros [= <- _]; eauto].
  intros R2. destruct (Hf _ _ _ _ R2) as (s2 & L2 & F2). exists (s ++ s2)%list. rewrite L2, L, app_assoc. split; auto. now apply first_then.
Qed.
Lemma heads_header {A} E h (f : G A) : adds not_header f -> heads h (go* _ := send_header E h in f).
Proof.
  intros Hf d d' o. unfold send_header. unfold gbind at 2. unfold glift at 1.
  destruct (dump EStrict h) as [t|e|w] eqn:D; cbn [io_of]; [|unfold gbind; intros [= <- _]; exists []; rewrite app_nil_r; split; auto; now left|unfold gbind; intros [= <- _]; exists []; rewrite app_nil_r; split; auto; now left].
  intros R. change ((go* _ := (fun d => let (events, ok) := dn_ack E (d_log d) in (go* _ := deliver E events in if ok then gret tt else fun d => (d, Waits)) d) in f) (dlog (DHeader t) d) = (d', o)) in R.
  assert (H : adds not_header (go* _ := (fun d => let (events, ok) := dn_ack E (d_log d) in (go* _ := deliver E events in if ok then gret tt else fun d => (d, Waits)) d) in f)).
  { apply adds_bind; [|auto]. intros d0 d0' o0. destruct (dn_ack E (d_log d0)) as [evs ok]. revert d0 d0' o0.
    match goal with |- forall d d' o, ?p d = _ -> _ => change (adds not_header p) end.
    apply adds_bind; [eapply adds_weak; [apply event_not_header|apply adds_deliver]|intros _]. destruct ok; [apply adds_ret|now apply adds_same]. }
  destruct (H (dlog (DHeader t) d) d' o R) as (s & L & F). exists (DHeader t :: s). rewrite L. cbn. rewrite <- app_assoc. split; auto.
  right. exists [], t, s. auto.
Qed.
Theorem request_heads E h m : only_started E -> heads h (process_request E h m).
Proof.
  intros Ho. apply heads_before; [apply adds_lift|intros cmd]. apply heads_before; [destruct (json_eqb cmd _); [apply adds_start|apply adds_ret]|intros reply].
  apply heads_before; [apply adds_lift|intros name]. apply heads_after; [|intros r; apply adds_bind; [destruct (json_eqb cmd _); [apply adds_stop|apply adds_ret]|intros _; apply adds_ret]].
  destruct (mfind name (handlers E false)) as [k|] eqn:H.
  - apply handlers_find in H as [(p & Hin & _)|H]; [specialize (Ho _ _ _ Hin); discriminate|]. unfold builtin in H.
    destruct (String.eqb name "debugInfo"); [injection H as <-|discriminate]. apply heads_adds. apply adds_same. reflexivity.
  - intros d d' o. destruct (d_started d).
    + apply heads_header. destruct (mfind name (handlers E true)) eqn:Ht; [eapply adds_handler; eauto|apply adds_forward].
    + intros [= <- _]. exists []. rewrite app_nil_r. split; auto. now left.
Qed.
