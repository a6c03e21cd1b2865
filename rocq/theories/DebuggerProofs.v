(** Proofs about the debugger. *)
From Verif Require Import Base BaseFacts Json JsonText JsonTextProofs Auth Message MessageProofs Dap DapSpec DapProofs DapQueue Debugger DebuggerSpec.

(** ** Steps that keep an invariant, unless they are undefined *)
Definition pres {A} (I : dbg -> Prop) (p : G A) : Prop := forall d d' o, I d -> p d = (d', o) -> (forall w, o <> Undef w) -> I d'.
Lemma pres_bind {A B} I (p : G A) (f : A -> G B) : pres I p -> (forall a, pres I (f a)) -> pres I (gbind p f).
Proof.
  intros Hp Hf d d' o HI. unfold gbind. destruct (p d) as [d1 o1] eqn:P. destruct o1 as [a|e|w|].
  - intros H Ho. refine (Hf a d1 d' o _ H Ho). refine (Hp d d1 _ HI P _). discriminate.
  - intros [= <- <-] _. refine (Hp d d1 _ HI P _). discriminate.
  - intros [= <- <-] Ho. now elim (Ho w).
  - intros [= <- <-] _. refine (Hp d d1 _ HI P _). discriminate.
Qed.
Lemma pres_lift {A} I (r : res A) : pres I (glift r).
Proof. intros d d' o HI [= <- _] _. exact HI. Qed.
Lemma pres_ret {A} I (a : A) : pres I (gret a).
Proof. intros d d' o HI [= <- _] _. exact HI. Qed.
Lemma pres_mod (I : dbg -> Prop) f : (forall d, I d -> I (f d)) -> pres I (gmod f).
Proof. intros H d d' o HI [= <- _] _. auto. Qed.
Lemma pres_waits {A} I : pres I (fun d => (d, @Waits A)).
Proof. intros d d' o HI [= <- _] _. exact HI. Qed.
Lemma pres_fail {A} I e : pres I (fun d => (d, @Fail A e)).
Proof. intros d d' o HI [= <- _] _. exact HI. Qed.
Lemma pres_pair {A X} I (f : dbg -> X) (k : X -> G A) : (forall x, pres I (k x)) -> pres I (fun d => k (f d) d).
Proof. intros H d d' o HI E Ho. exact (H (f d) d d' o HI E Ho). Qed.

(** ** The handlers *)
Definition builtin (E : dbgenv) (b : bool) (name : string) : option (json -> G json) :=
  if b then
    if String.eqb name "variables" then Some (variables_request E)
    else if String.eqb name "stackTrace" then Some (stack_trace_request E)
    else if String.eqb name "source" then Some (source_request)
    else if String.eqb name "setBreakpoints" then Some (set_breakpoints_request E)
    else if String.eqb name "dumpCell" then Some (dump_cell_request E)
    else None
  else if String.eqb name "debugInfo" then Some (debug_info_request E) else None.
Lemma mfind_mset {A} (k k' : string) (v : A) (m : list (string * A)) : mfind k (mset k' v m) = if String.eqb k k' then Some v else mfind k m.
Proof. destruct (String.eqb_spec k k') as [->|N]; [apply mfind_mset_same|now apply mfind_mset_other]. Qed.
Lemma builtin_find (E : dbgenv) (b : bool) (name : string) : mfind name (if b
       then mset "variables" (variables_request E) (mset "stackTrace" (stack_trace_request E) (mset "source" source_request
              (mset "setBreakpoints" (set_breakpoints_request E) (mset "dumpCell" (dump_cell_request E) []))))
       else mset "debugInfo" (debug_info_request E) []) = builtin E b name.
Proof. unfold builtin. destruct b; [do 5 rewrite mfind_mset|rewrite mfind_mset]; cbn [mfind]; reflexivity. Qed.
Lemma handlers_find E b name h : mfind name (handlers E b) = Some h ->
  (exists p, In (name, b, p) (dn_regs E) /\ h = fun j => run_user E (p j)) \/ builtin E b name = Some h.
Proof.
  unfold handlers. rewrite <- (builtin_find E b name). match goal with |- context [fold_left _ _ ?x] => generalize x end.
  induction (dn_regs E) as [|[[c b'] p] l IH]; intros acc; cbn [fold_left]; [auto|]. intros H. apply IH in H.
  destruct H as [(q & H & ->)|H]; [left; exists q; cbn; auto|]. destruct (Bool.eqb_spec b' b) as [->|N]; [|auto].
  rewrite mfind_mset in H. destruct (String.eqb_spec name c) as [->|N]; [|auto]. injection H as <-. left. exists p. cbn. auto.
Qed.
Lemma handlers_builtin E b name : (forall p, ~ In (name, b, p) (dn_regs E)) -> mfind name (handlers E b) = builtin E b name.
Proof.
  unfold handlers. rewrite <- (builtin_find E b name). match goal with |- context [fold_left _ _ ?x] => generalize x end.
  induction (dn_regs E) as [|[[c b'] p] l IH]; intros acc N; cbn [fold_left]; [auto|]. rewrite IH by (intros q Hq; apply (N q); right; exact Hq).
  destruct (Bool.eqb_spec b' b) as [->|Nb]; [|auto]. rewrite mfind_mset. destruct (String.eqb_spec name c) as [->|N']; [|auto]. elim (N p). now left.
Qed.

(** ** Generic invariants: only events, sends, receives *)
Section Generic.
  Context (E : dbgenv) (I : dbg -> Prop).
  Context (Hev : forall d j d', I d -> (handle_debug_event E j (dlog (DEvent j) d) = Ok d' \/ (exists e, handle_debug_event E j (dlog (DEvent j) d) = Exn e /\ d' = dlog (DEvent j) d)) -> I d').
  Context (Hrecv : forall d t, I d -> I (dlog (DRecv t) d)).
  Lemma pres_deliver l : pres I (deliver E l).
  Proof.
    induction l as [|j l IH]; intros d d' o HI; cbn [deliver]; [intros [= <- _]; auto|].
    destruct (handle_debug_event E j (dlog (DEvent j) d)) as [d1|e|w] eqn:H.
    - intros R Ho. eapply IH; [|exact R|exact Ho]. eapply Hev; eauto.
    - intros R Ho. eapply IH; [|exact R|exact Ho]. eapply Hev; eauto.
    - intros [= <- <-] Ho. now elim (Ho w).
  Qed.
  (** After the send. *)
  Definition await : G json := fun d =>
    let (events, answer) := dn_reply E (d_log d) in
    (go* _ := deliver E events in
     match answer with
     | None => fun d => (d, Waits)
     | Some text => go* _ := gmod (dlog (DRecv text)) in glift (parse text)
     end) d.
  Lemma pres_await : pres I await.
  Proof.
    intros d d' o HI. unfold await. destruct (dn_reply E (d_log d)) as [events [text|]].
    - refine (pres_bind I _ _ _ _ d d' o HI); [apply pres_deliver|]. intros _. apply pres_bind; [apply pres_mod; intros d1; apply Hrecv|intros _; apply pres_lift].
    - refine (pres_bind I _ _ _ _ d d' o HI); [apply pres_deliver|]. intros _. apply pres_waits.
  Qed.
  Lemma pres_forward m : (forall d t, I d -> dump EStrict m = Ok t -> I (dlog (DSend m (dap_frame t)) d)) -> pres I (forward_message E m).
  Proof.
    intros Hs. unfold forward_message, gbind at 1, glift at 1. intros d d' o HI. destruct (dump EStrict m) as [t| |] eqn:D; cbn [io_of].
    - refine (pres_bind I _ _ _ _ d d' o HI); [apply pres_mod; intros; apply Hs; eauto|intros _; apply pres_await].
    - now intros [= <- _].
    - now intros [= <- _].
  Qed.
End Generic.

(** ** Invariants of requests *)
Lemma handle_event_shape E j d d' : handle_debug_event E j d = Ok d' -> exists th, d' = d_set_threads th d.
Proof.
  unfold handle_debug_event. destruct (jget "event" j) as [e| |]; try discriminate. cbn [bind]. destruct (get_string e) as [ev| |]; try discriminate. cbn [bind].
  assert (S : exists th, d = d_set_threads th d) by (exists (d_threads d); now destruct d).
  destruct (existsb _ _); [intros [= <-]; auto|].
  destruct (String.eqb ev "continued"); [destruct (event_thread j); try discriminate; intros [= <-]; eauto|].
  destruct (String.eqb ev "stopped"); [destruct (event_thread j); try discriminate; intros [= <-]; eauto|]. intros [= <-]; auto.
Qed.
Lemma jget_ok k j v : jget k j = Ok v <-> jfield k j = Some v.
Proof. destruct j; cbn; try (split; discriminate). destruct (mfind k m); split; congruence. Qed.
Lemma get_string_ok j s : get_string j = Ok s <-> j = JStr s.
Proof. destruct j; cbn; split; congruence. Qed.
Lemma get_source_path_ok m src : get_source_path m = Ok src ->
  exists a s, jfield "arguments" m = Some a /\ jfield "source" a = Some s /\ jfield "path" s = Some (JStr src).
Proof.
  unfold get_source_path. destruct (jget "arguments" m) as [a| |] eqn:A; try discriminate. cbn [bind].
  destruct (jget "source" a) as [s| |] eqn:S; try discriminate. cbn [bind]. destruct (jget "path" s) as [p| |] eqn:P; try discriminate. cbn [bind].
  intros H. apply get_string_ok in H. subst p. apply jget_ok in A, S, P. eauto.
Qed.

Section Requests.
  Context (E : dbgenv) (I : dbg -> Prop).
  Context (Hev : forall d j d', I d -> (handle_debug_event E j (dlog (DEvent j) d) = Ok d' \/ (exists e, handle_debug_event E j (dlog (DEvent j) d) = Exn e /\ d' = dlog (DEvent j) d)) -> I d').
  Context (Hrecv : forall d t, I d -> I (dlog (DRecv t) d)).
  Context (Hhdr : forall d t, I d -> d_started d = true -> I (dlog (DHeader t) d)).
  Context (Hsend : forall d m t, I d -> (only_started E -> d_started d = true) -> dump EStrict m = Ok t ->
    (breakpoints_left E -> jfield "command" m <> Some (JStr "setBreakpoints")) -> I (dlog (DSend m (dap_frame t)) d)).
  Context (Hset : forall d m t src bps, I d -> d_started d = true -> dump EStrict m = Ok t -> sets_breakpoints m src bps ->
    I (dlog (DSend m (dap_frame t)) (d_set_bps (mset src bps (mdel src (d_bps d))) d))).
  Context (Hstart : forall d ok, I d -> d_started d = false -> I (dlog (DStart ok) (d_set_started ok d))).
  Context (Hstop : forall d, I d -> I (dlog DStop (d_set_started false (d_set_threads [] (d_set_bps [] d))))).
  Context (Hdump : forall d name code, I d -> open_in (d_fs d) name = None -> I (d_set_fs (write_out (d_fs d) name code) d)).

  Definition at_start (b : bool) (d : dbg) : Prop := I d /\ d_started d = b.
  Lemma ev_at b : forall d j d', at_start b d -> (handle_debug_event E j (dlog (DEvent j) d) = Ok d' \/ (exists e, handle_debug_event E j (dlog (DEvent j) d) = Exn e /\ d' = dlog (DEvent j) d)) -> at_start b d'.
  Proof.
    intros d j d' [H1 H2] H. split; [eapply Hev; eauto|]. destruct H as [H|(e & _ & ->)]; [|exact H2]. apply handle_event_shape in H as [th ->]. exact H2.
  Qed.
  Lemma recv_at b : forall d t, at_start b d -> at_start b (dlog (DRecv t) d).
  Proof. intros d t [H1 H2]. split; auto. Qed.
  Lemma pres_deliver_at b l : pres (at_start b) (deliver E l).
  Proof. apply pres_deliver. apply ev_at. Qed.
  Lemma pres_await_at b : pres (at_start b) (await E).
  Proof. apply pres_await; [apply ev_at|apply recv_at]. Qed.
  Lemma pres_forward_at b m : (only_started E -> b = true) -> (breakpoints_left E -> jfield "command" m <> Some (JStr "setBreakpoints")) -> pres (at_start b) (forward_message E m).
  Proof.
    intros Hb Hm. apply pres_forward; [apply ev_at|apply recv_at|]. intros d t [H1 H2] D. split; auto. apply Hsend; auto. now rewrite H2.
  Qed.
  Lemma pres_user b p : (only_started E -> b = true) -> (breakpoints_left E -> forwards (fun j => jfield "command" j <> Some (JStr "setBreakpoints")) p) -> pres (at_start b) (run_user E p).
  Proof.
    intros Hb. induction p as [j|e|j k IH]; intros F; cbn [run_user]; [apply pres_ret|apply pres_fail|].
    apply pres_bind; [|intros r]. - apply pres_forward_at; auto. intros L. exact (proj1 (F L)). - apply IH. intros L. exact (proj2 (F L) r).
  Qed.
  Lemma pres_set m t : dump EStrict m = Ok t -> jfield "command" m = Some (JStr "setBreakpoints") -> pres (at_start true) (set_breakpoints_request E m).
  Proof.
    intros D Cm d d' o [H1 H2]. unfold set_breakpoints_request, gbind at 1, glift at 1.
    destruct (get_source_path m) as [src| |] eqn:P; cbn [io_of]; [|intros [= <- _] _; split; auto|intros [= <- _] _; split; auto].
    destruct (get_source_path_ok _ _ P) as (a & s & A & S & Pa).
    unfold gbind at 1, gmod at 1. unfold gbind at 1, glift at 1. rewrite (proj2 (jget_ok _ _ _) A). cbn [bind].
    destruct (jget "breakpoints" a) as [v| |] eqn:V; cbn [io_of].
    - apply jget_ok in V. unfold gbind at 1, gmod at 1. unfold forward_message, gbind at 1, glift at 1. rewrite D. cbn [io_of]. unfold gbind at 1, gmod at 1.
      refine (pres_await_at true _ d' o _). split; [|exact H2].
      apply (Hset d m t src (jelements v) H1 H2 D). split; auto. exists a, s, v. auto.
    - exfalso. destruct a; cbn in S, V; try discriminate. destruct (mfind "breakpoints" m0); discriminate.
    - intros [= <- <-] Ho. now elim (Ho why).
  Qed.
  Lemma pres_dump b m : pres (at_start b) (dump_cell_request E m).
  Proof.
    apply pres_bind; [apply pres_lift|intros c]. apply pres_bind; [apply pres_lift|intros f]. apply pres_bind; [|intros _; apply pres_lift].
    apply pres_mod. intros d [H1 H2]. destruct (open_in (d_fs d) f) eqn:O; split; auto.
  Qed.
  Lemma pres_source b m : pres (at_start b) (source_request m).
  Proof.
    apply pres_bind; [apply pres_lift|intros p]. intros d d' o H. destruct (open_in (d_fs d) p); apply pres_lift; auto.
  Qed.
  Lemma pres_start m : pres I (do_start E m).
  Proof.
    intros d d' o H. unfold do_start. destruct (d_started d) eqn:S; [now intros [= <- _]|]. destruct (dn_start E (d_log d)) as [evs r].
    assert (HS : at_start false d) by (split; auto). intros R Ho.
    unfold gbind at 1 in R. destruct (deliver E evs d) as [d1 o1] eqn:Dl. 
    assert (H1 : (forall w, o1 <> Undef w) -> at_start false d1) by (intros N; exact (pres_deliver_at false evs d d1 o1 HS Dl N)).
    destruct o1 as [[]|e|w|]; [|injection R as <- _; apply H1; discriminate|injection R as <- <-; now elim (Ho w)|injection R as <- _; apply H1; discriminate].
    destruct (H1 ltac:(discriminate)) as [H2 H3]. unfold gbind at 1, glift at 1 in R. destruct r as [ok| |]; cbn [io_of] in R; [|injection R as <- _; auto|injection R as <- _; auto].
    unfold gbind at 1, gmod at 1 in R. assert (H4 : I (dlog (DStart ok) (d_set_started ok d1))) by (apply Hstart; auto).
    destruct ok; [|unfold glift in R]; injection R as <- _; exact H4.
  Qed.
  Lemma pres_stop : pres I (do_stop E).
  Proof.
    intros d d' o H. unfold do_stop. destruct (dn_stop E (d_log d)) as [evs r].
    refine (pres_bind I _ _ _ _ d d' o H); [apply pres_deliver; exact Hev|intros _]. apply pres_bind; [apply pres_lift|intros _]. apply pres_mod. exact Hstop.
  Qed.
  Lemma pres_header h : pres (at_start true) (send_header E h).
  Proof.
    apply pres_bind; [apply pres_lift|intros t]. apply pres_bind; [apply pres_mod; intros d [H1 H2]; split; auto|intros _].
    intros d d' o H. destruct (dn_ack E (d_log d)) as [evs ok].
    refine (pres_bind _ _ _ _ _ d d' o H); [apply pres_deliver_at|intros _]. destruct ok; [apply pres_ret|apply pres_waits].
  Qed.
  Lemma at_forget {A} b (p : G A) : pres (at_start b) p -> forall d d' o, I d -> d_started d = b -> p d = (d', o) -> (forall w, o <> Undef w) -> I d'.
  Proof. intros H d d' o H1 H2 R Ho. exact (proj1 (H d d' o (conj H1 H2) R Ho)). Qed.
  Theorem pres_process h m t : dump EStrict m = Ok t -> pres I (process_request E h m).
  Proof.
    intros D. unfold process_request. intros d d' o H. unfold gbind at 1, glift at 1. destruct (jget "command" m) as [cmd| |] eqn:C; cbn [io_of]; try (now intros [= <- _]).
    apply jget_ok in C. revert d d' o H.
    change (pres I (go* reply := (if json_eqb cmd (JStr "initialize") then do_start E m else gret (JObj [])) in
      go* name := glift (get_string cmd) in
      go* reply := (match mfind name (handlers E false) with
                  | Some h => h m
                  | None => fun d =>
                      if d_started d then
                        (go* _ := send_header E h in
                         match mfind name (handlers E true) with
                         | Some h => h m
                         | None => forward_message E m
                         end) d
                      else (d, Done reply)
                  end) in
      go* _ := (if json_eqb cmd (JStr "disconnect") then do_stop E else gret tt) in gret reply)).
    apply pres_bind; [destruct (json_eqb cmd _); [apply pres_start|apply pres_ret]|intros reply].
    intros d d' o H. unfold gbind at 1, glift at 1. destruct (get_string cmd) as [name| |] eqn:N; cbn [io_of]; try (now intros [= <- _]). apply get_string_ok in N. subst cmd.
    refine (pres_bind I _ _ _ _ d d' o H).
    - clear d d' o H. destruct (mfind name (handlers E false)) as [hd|] eqn:Hf.
      + intros d d' o H. apply handlers_find in Hf as [(p & Hin & ->)|Hb].
        * apply (at_forget (d_started d) (run_user E (p m))); auto. apply pres_user; [intros Ho; specialize (Ho _ _ _ Hin); discriminate|].
          intros L. exact (proj2 (L _ _ _ Hin) m).
        * unfold builtin in Hb. destruct (String.eqb name "debugInfo"); [|discriminate]. injection Hb as <-. apply pres_lift. exact H.
      + intros d d' o H. destruct (d_started d) eqn:S; [|now intros [= <- _]].
        apply (at_forget true (go* _ := send_header E h in match mfind name (handlers E true) with Some h => h m | None => forward_message E m end)); auto.
        apply pres_bind; [apply pres_header|intros _].
        assert (Cn : name <> "setBreakpoints" -> jfield "command" m <> Some (JStr "setBreakpoints")) by (rewrite C; congruence).
        destruct (mfind name (handlers E true)) as [hd|] eqn:Ht.
        * apply handlers_find in Ht as [(p & Hin & ->)|Hb].
          -- apply pres_user; auto. intros L. exact (proj2 (L _ _ _ Hin) m).
          -- unfold builtin in Hb.
             destruct (String.eqb_spec name "variables") as [->|]; [injection Hb as <-; apply pres_bind; [apply pres_forward_at; auto; intros _; apply Cn; discriminate|intros r; apply pres_lift]|].
             destruct (String.eqb_spec name "stackTrace") as [->|]; [injection Hb as <-; apply pres_bind; [apply pres_forward_at; auto; intros _; apply Cn; discriminate|intros r; apply pres_lift]|].
             destruct (String.eqb_spec name "source") as [->|]; [injection Hb as <-; apply pres_source|].
             destruct (String.eqb_spec name "setBreakpoints") as [->|]; [injection Hb as <-; eapply pres_set; eauto|].
             destruct (String.eqb_spec name "dumpCell") as [->|]; [injection Hb as <-; apply pres_dump|discriminate].
        * apply pres_forward_at; auto. intros L. apply Cn. intros ->.
          rewrite handlers_builtin in Ht; [discriminate|]. intros p Hin. exact (proj1 (L _ _ _ Hin) eq_refl).
    - intros r. apply pres_bind; [|intros _; apply pres_ret]. destruct (json_eqb _ _); [apply pres_stop|apply pres_ret].
  Qed.
  Theorem pres_history d l d' : sendable l -> (forall d fs, In (HFiles fs) l -> I d -> I (d_set_fs fs d)) -> I d -> history E d l d' -> I d'.
  Proof.
    intros Hs Hfs H R. induction R as [|d h m d1 r l d2 P R IH|d h m d1 e l d2 P R IH|d h m d1 P|d evs d1 l d2 P R IH|d fs l d1 R IH]; auto.
    - apply IH; [intros h' m' Hin; apply (Hs h' m'); now right|intros; apply Hfs; cbn; auto|]. destruct (Hs h m (or_introl eq_refl)) as [t D]. refine (pres_process h m t D _ _ _ H P _). discriminate.
    - apply IH; [intros h' m' Hin; apply (Hs h' m'); now right|intros; apply Hfs; cbn; auto|]. destruct (Hs h m (or_introl eq_refl)) as [t D]. refine (pres_process h m t D _ _ _ H P _). discriminate.
    - destruct (Hs h m (or_introl eq_refl)) as [t D]. refine (pres_process h m t D _ _ _ H P _). discriminate.
    - apply IH; [intros h' m' Hin; apply (Hs h' m'); now right|intros; apply Hfs; cbn; auto|]. refine (pres_deliver E I Hev evs _ _ _ H P _). discriminate.
    - apply IH; [intros h' m' Hin; apply (Hs h' m'); now right|intros; apply Hfs; cbn; auto|]. apply Hfs; [now left|exact H].
  Qed.
End Requests.
