(** Input requests and the messages that answer them take turns. *)
From Verif Require Import Base BaseFacts Json JsonText Auth Message History Comm Tree Kernel KernelSpec Server ServerSpec Split SplitSpec SplitRaceSpec SplitRace AskedSpec.

(** What the thread that uses the stdin socket knows: where it is between a request and its answer, and
    the variable of [blocking_input_request]. *)
Inductive turn := Idle | Waiting | Got (n : nat).
Definition gh : Type := (turn * option string)%type.
Definition calm (g : gh) : Prop := fst g <> Waiting /\ snd g = None.
Definition clean (g : gh) : Prop := fst g <> Waiting /\ (snd g = None \/ snd g = Some "").

Section Turns.
  Context {U : Type} (E : env U).
  Definition got_value (g : gh) (v : string) : Prop := exists n, fst g = Got n /\ value_of E (e_stdin E n) v.
  Definition may_do (o : kop U) (g : gh) : Prop :=
    match o with
    | KEmit (EStdin _ _) => clean g
    | KEmit (EInput h v) => clean g /\ got_value g v
    | KStdin => fst g = Waiting
    | KSetValue (Some v) => fst g <> Waiting /\ (v = "" \/ got_value g v)
    | _ => fst g <> Waiting
    end.
  Definition hears (o : kop U) : kans o -> gh -> Prop :=
    match o return kans o -> gh -> Prop with KValue => fun x g => x = snd g | _ => fun _ _ => True end.
  Definition learns (o : kop U) : kans o -> gh -> gh :=
    match o return kans o -> gh -> gh with
    | KEmit (EStdin _ _) => fun _ g => (Waiting, snd g)
    | KEmit (EInput _ _) => fun _ g => (Idle, snd g)
    | KStdin => fun n g => (Got n, snd g)
    | KSetValue v => fun _ g => (fst g, v)
    | _ => fun _ g => g
    end.
  Fixpoint wp {A} (g : gh) (p : kprog U A) (Q : gh -> A -> Prop) (X : gh -> Prop) : Prop :=
    match p with
    | Ret a => Q g a
    | Throw _ => X g
    | Stuck _ => fst g <> Waiting
    | Do o k => may_do o g /\ forall x, hears o x g -> wp (learns o x g) (k x) Q X
    end.
  Lemma wp_impl {A} g (p : kprog U A) (Q Q' : gh -> A -> Prop) (X X' : gh -> Prop) :
    wp g p Q X -> (forall g a, Q g a -> Q' g a) -> (forall g, X g -> X' g) -> wp g p Q' X'.
  Proof. revert g; induction p as [a|e|w|o k IH]; intros g H HQ HX; cbn in *; auto. destruct H as [Hm H]. split; auto. Qed.
  Lemma wp_bind {A B} g (p : kprog U A) (f : A -> kprog U B) Q R X :
    wp g p Q X -> (forall g a, Q g a -> wp g (f a) R X) -> wp g (tbind p f) R X.
  Proof. revert g; induction p as [a|e|w|o k IH]; intros g H Hf; cbn in *; auto. destruct H as [Hm H]. split; auto. Qed.
  Lemma wp_catch {A} g (p h : kprog U A) Q (X Y : gh -> Prop) :
    wp g p Q Y -> (forall g, Y g -> wp g h Q X) -> (forall g, Y g -> X g) -> wp g (catch_std p h) Q X.
  Proof.
    revert g; induction p as [a|e|w|o k IH]; intros g H Hf HX; cbn in *; auto.
    - destruct (is_std e); cbn; auto.
    - destruct H as [Hm H]. split; auto.
  Qed.
  Lemma wp_attempt {A} g (p : kprog U A) (Q : gh -> A + exn -> Prop) (X Y : gh -> Prop) :
    wp g p (fun g a => Q g (inl a)) Y -> (forall g e, Y g -> Q g (inr e)) -> wp g (attempt p) Q X.
  Proof. revert g; induction p as [a|e|w|o k IH]; intros g H HY; cbn in *; auto. destruct H as [Hm H]. split; auto. Qed.

  (** Programs that leave the stdin socket alone. *)
  Definition apart (o : kop U) : Prop :=
    match o with KEmit (EStdin _ _) | KEmit (EInput _ _) | KStdin | KSetValue _ => False | _ => True end.
  Lemma wp_apart {A} (p : kprog U A) g : always apart p -> fst g <> Waiting -> wp g p (fun g' _ => g' = g) (fun g' => g' = g).
  Proof.
    intros H Hg. induction p as [a|e|w|o k IH]; cbn in *; auto. destruct H as [Ho H]. destruct o; try match goal with e : event |- _ => destruct e end; try contradiction; (split; [exact Hg|]); intros x _; apply IH; auto.
  Qed.
  Definition good {A} (p : kprog U A) : Prop := forall g, calm g -> wp g p (fun g _ => calm g) calm.
  Lemma good_apart {A} (p : kprog U A) : always apart p -> good p.
  Proof. intros H g Hg. eapply wp_impl; [apply wp_apart; [exact H|apply Hg]| |]; cbn; intros; subst; auto. Qed.
  Lemma good_bind {A B} (p : kprog U A) (f : A -> kprog U B) : good p -> (forall a, good (f a)) -> good (tbind p f).
  Proof. intros H Hf g Hg. eapply wp_bind; [apply H, Hg|]. intros g' a H'. now apply Hf. Qed.
  Lemma good_catch {A} (p h : kprog U A) : good p -> good h -> good (catch_std p h).
  Proof. intros H Hf g Hg. eapply wp_catch; [apply H, Hg|intros; now apply Hf|auto]. Qed.
  Lemma good_attempt {A} (p : kprog U A) : good p -> good (attempt p).
  Proof. intros H g Hg. eapply wp_attempt; [apply H, Hg|auto]. Qed.
  Lemma good_ret {A} (a : A) : good (Ret a).
  Proof. intros g Hg. exact Hg. Qed.
  Lemma good_throw {A} e : good (Throw e : kprog U A).
  Proof. intros g Hg. exact Hg. Qed.
  Lemma good_stuck {A} w : good (Stuck w : kprog U A).
  Proof. intros g Hg. apply Hg. Qed.
  Lemma good_res {A} (r : res A) : good (of_res r).
  Proof. apply good_apart, always_of_res. Qed.
  Lemma good_kdo (o : kop U) : apart o -> good (kdo o).
  Proof. intros H. apply good_apart. split; [exact H|intros; exact I]. Qed.

  Ltac np := repeat match goal with
    | |- always _ (tbind _ _) => apply always_bind; [|intros ?]
    | |- always _ (catch_std _ _) => apply always_catch
    | |- always _ (attempt _) => apply always_attempt
    | |- always _ (of_res _) => apply always_of_res
    | |- always _ (kdo _) => split; [exact I | intros ?; exact I]
    | |- always _ (perform _) => split; [exact I | intros ?; exact I]
    | |- always _ (Ret _) => exact I
    | |- always _ (Throw _) => exact I
    | |- always _ (Stuck _) => exact I
    | |- always _ (match ?x with _ => _ end) => destruct x
    | _ => progress unfold log, emit, new_guid, now, new_header, get_metadata, with_comms, look_comms
    end.
  Lemma a_publish ty md ct b c : always apart (publish_message E ty md ct b c).
  Proof. unfold publish_message. cbv zeta. np. Qed.
  Lemma a_send_to ids ty ph md ct c : always apart (send_reply_to E ids ty ph md ct c).
  Proof. unfold send_reply_to. cbv zeta. np. Qed.
  Lemma a_send ty md ct c : always apart (send_reply E ty md ct c).
  Proof. unfold send_reply. np. apply a_send_to. Qed.
  Lemma a_target p ty md ct b : always apart (target_publish E p ty md ct b).
  Proof. unfold target_publish. np. apply a_publish. Qed.
  Lemma a_api0 o : always apart (api0 E o).
  Proof. destruct o; cbn [api0]; unfold publish_execution_input, comm_open_msg, comm_close_msg, comm_send_msg; np; auto using a_publish, a_target. Qed.
  Lemma a_embed0 {A} (t : ucode0 U A) : always apart (embed0 E t).
  Proof. induction t; cbn [embed0]; try exact I. apply always_bind; [apply always_attempt, a_api0|auto]. Qed.
  Lemma a_abort_request w : always apart (abort_request E w).
  Proof. unfold abort_request. cbv zeta. np. apply a_send_to. Qed.
  Lemma a_loop n : always apart (abort_loop E n).
  Proof. induction n as [|n IH]; cbn [abort_loop]; [exact I|]. np; [apply a_abort_request|exact IH]. Qed.

  (** The answer to a request. *)
  Lemma value_value m v : value_string "value" "" (m_content (m_base m)) = Ok v -> forall w, accepted E w m -> value_of E w v.
  Proof.
    unfold value_string, jvalue. intros H w Ha. exists m. destruct (m_content (m_base m)) as [| | | | | |mm] eqn:Hc; try discriminate. exists mm. split; auto. split; auto.
    destruct (mfind "value" mm) as [j|] eqn:F; [|injection H as <-; auto]. left. destruct j; cbn in H; try discriminate. injection H as <-. reflexivity.
  Qed.
  Lemma wp_dispatch_stdin n val : (val = None \/ val = Some "") ->
    wp (Got n, val) (dispatch_stdin E (e_stdin E n)) (fun g _ => fst g <> Waiting /\ (val = None -> snd g = None)) (fun g => fst g <> Waiting /\ snd g = val).
  Proof.
    intros Hv. unfold dispatch_stdin. eapply wp_catch with (Y := fun g => fst g <> Waiting /\ snd g = val).
    3: auto. 2:{ intros g [A B]. cbn. split; auto. now intros ->. }
    destruct (deserialize (e_crypto E) (e_auth E) (e_stdin E n)) as [m|e|why] eqn:Hd; cbn [of_res tbind wp fst snd]; [|split; [discriminate|reflexivity]|discriminate].
    unfold log. destruct (e_logger E (LReceived m None)); cbn [of_res tbind wp fst snd]; [|split; [discriminate|reflexivity]|discriminate].
    destruct (value_string "value" "" (m_content (m_base m))) as [v|e|why] eqn:Hval; cbn [of_res tbind wp fst snd]; [|split; [discriminate|reflexivity]|discriminate].
    assert (HV : got_value (Got n, val) v) by (exists n; split; auto; eapply value_value; eauto).
    unfold input_reply, kdo, perform. cbn [tbind wp may_do fst snd]. split; [discriminate|]. intros [[|h]|] _; cbn [learns].
    - cbn [tbind wp may_do fst snd hears]. split; [discriminate|]. intros x ->. destruct val as [s|]; cbn [wp may_do fst snd learns]; [|discriminate].
      split; [split; [discriminate|now right]|]. intros _ _. split; [discriminate|discriminate].
    - unfold emit, kdo, perform. cbn [tbind wp may_do learns fst snd]. split; [split; [|exact HV]; split; [discriminate|exact Hv]|]. intros _ _.
      eapply wp_impl; [apply wp_apart; [apply a_embed0|cbn; discriminate]| |]; cbn; intros; subst; cbn; split; auto; discriminate.
    - cbn. split; [discriminate|auto].
  Qed.
  Lemma wp_input_request p b g : clean g ->
    wp g (input_request E p b) (fun g' _ => fst g' <> Waiting /\ (snd g = None -> snd g' = None)) (fun g' => fst g' <> Waiting /\ snd g' = snd g).
  Proof.
    intros Hg. unfold input_request, send_stdin. cbv zeta.
    eapply wp_bind with (Q := fun g' _ => g' = g); [eapply wp_impl; [apply wp_apart; [np|apply Hg]| |]; cbn; intros; subst; auto; split; auto; apply Hg|]. intros g' ids ->.
    eapply wp_bind with (Q := fun g' _ => g' = g); [eapply wp_impl; [apply wp_apart; [np|apply Hg]| |]; cbn; intros; subst; auto; split; auto; apply Hg|]. intros g' h ->.
    eapply wp_bind with (Q := fun g' _ => g' = g); [eapply wp_impl; [apply wp_apart; [np|apply Hg]| |]; cbn; intros; subst; auto; split; auto; apply Hg|]. intros g' ph ->.
    eapply wp_bind with (Q := fun g' _ => g' = g); [eapply wp_impl; [apply wp_apart; [np|apply Hg]| |]; cbn; intros; subst; auto; split; auto; apply Hg|]. intros g' [] ->.
    eapply wp_bind with (Q := fun g' _ => g' = g); [eapply wp_impl; [apply wp_apart; [np|apply Hg]| |]; cbn; intros; subst; auto; split; auto; apply Hg|]. intros g' w ->.
    unfold emit, kdo, perform. cbn [tbind wp may_do learns fst snd]. split; [exact Hg|]. intros _ _. split; [reflexivity|]. intros n _.
    apply wp_dispatch_stdin. apply Hg.
  Qed.
  Lemma good_input p b : good (input_request E p b).
  Proof.
    intros g [A B]. eapply wp_impl; [apply wp_input_request; split; auto| |]; cbn.
    - intros g' _ [C D]. split; auto.
    - intros g' [C D]. split; auto. congruence.
  Qed.
  Lemma good_blocking p b : good (blocking_input_request E p b).
  Proof.
    intros g [A B]. unfold blocking_input_request, kdo, perform. cbn [tbind wp may_do learns fst snd]. split; [split; auto|]. intros _ _.
    split; [exact A|]. intros _ _.
    eapply wp_bind with (Q := fun g _ => fst g <> Waiting).
    - apply wp_attempt with (Y := fun g => fst g <> Waiting); auto. eapply wp_impl; [apply wp_input_request; split; cbn; auto| |]; cbn; intros ? H; [intros [X _]|destruct H]; auto.
    - intros g' [x|e] Hg; cbn [tbind wp may_do learns hears fst snd]; (split; [exact Hg|]).
      + intros _ _. split; [exact Hg|]. intros v _. split; [exact Hg|]. intros _ _. split; auto.
      + intros _ _. split; auto.
  Qed.
  Lemma good_api1 o : good (api1 E o).
  Proof. destruct o; cbn [api1]; [apply good_apart, a_api0|apply good_input|apply good_blocking]. Qed.
  Lemma good_embed {A} (t : ucode U A) : good (embed E t).
  Proof. induction t as [a|e|w|o k IH]; cbn [embed]; auto using good_ret, good_throw, good_stuck. apply good_bind; [apply good_attempt, good_api1|auto]. Qed.
  Hint Resolve good_ret good_throw good_stuck good_res good_embed good_catch good_attempt : gd.
  Ltac gd := repeat match goal with
    | |- good (tbind _ _) => apply good_bind; [|intros ?]
    | |- good (catch_std _ _) => apply good_catch
    | |- good (attempt _) => apply good_attempt
    | |- good (kdo _) => apply good_kdo; exact I
    | |- good (publish_message _ _ _ _ _ _) => apply good_apart, a_publish
    | |- good (send_reply _ _ _ _ _) => apply good_apart, a_send
    | |- good (abort_loop _ _) => apply good_apart, a_loop
    | |- good (match ?x with _ => _ end) => destruct x
    | _ => solve [auto with gd]
    | _ => progress unfold log, emit, new_guid, now, new_header, get_metadata, with_comms, look_comms, set_parent, publish_status
    end.
  Lemma good_interp r : good (interp E r).
  Proof. unfold interp. gd. Qed.
  Hint Resolve good_interp : gd.
  Lemma good_internal w : good (dispatch_internal E w).
  Proof. unfold dispatch_internal. gd. Qed.
  Hint Resolve good_internal : gd.
  Lemma good_api2 o : good (api2 E o).
  Proof. destruct o; cbn [api2]; [apply good_api1|]. unfold send_to_shell. gd. Qed.
  Lemma good_embed2 {A} (t : ucode2 U A) : good (embed2 E t).
  Proof. induction t as [a|e|w|o k IH]; cbn [embed2]; auto with gd. apply good_bind; [apply good_attempt, good_api2|auto]. Qed.
  Hint Resolve good_embed2 : gd.
  Lemma good_handlers ty h m c : mfind ty (handlers E) = Some h -> good (h m c).
  Proof.
    intros H. unfold handlers in H. cbn [mfind] in H.
    repeat match type of H with (if String.eqb ?a ?b then _ else _) = _ => destruct (String.eqb a b); [injection H as <-|] end; [..|discriminate].
    - unfold execute_request, interp_execute, publish_execution_input, abort_queue. cbv zeta. gd.
    - unfold complete_request. cbv zeta. gd.
    - unfold inspect_request. cbv zeta. gd.
    - unfold history_request. gd.
    - unfold is_complete_request. gd.
    - unfold comm_info_request. cbv zeta. gd.
    - unfold comm_open, run_callback. cbv zeta. gd.
    - unfold comm_close, run_handler. gd.
    - unfold comm_msg, run_handler. gd.
    - unfold kernel_info_request. gd.
    - unfold shutdown_request. cbv zeta. gd.
    - unfold interrupt_request. gd.
    - unfold debug_request. destruct (e_debugger E); cbv zeta; gd.
  Qed.
  Lemma good_handle ty m c : good (handle E ty m c).
  Proof. unfold handle. destruct (mfind ty (handlers E)) eqn:Hf; gd. eapply good_handlers; eauto. Qed.
  Hint Resolve good_handle : gd.
  Lemma good_dispatch w c : good (dispatch E w c).
  Proof. unfold dispatch. cbv zeta. gd. Qed.
  (** The variable after the configuration of the interpreter and the start. *)
  Lemma good_start : good (kernel_start E).
  Proof. unfold kernel_start, build_start_msg. cbv zeta. gd. Qed.
  Lemma wp_run {A} (p : kprog U A) Q X : forall g s s' r, wp g p Q X -> snd g = k_value s -> run p s = (s', r) ->
    match r with Ok a => exists g', Q g' a /\ snd g' = k_value s' | Exn _ => exists g', X g' /\ snd g' = k_value s' | UB _ => True end.
  Proof.
    unfold run. induction p as [a|e|w|o k IH]; intros g s s' r H Hv Hr; cbn in H, Hr.
    - injection Hr as <- <-. eauto.
    - injection Hr as <- <-. eauto.
    - injection Hr as <- <-. exact I.
    - destruct H as [_ H]. destruct (kstep o s) as [s1 x] eqn:Hk.
      assert (Hh : hears o x g) by (destruct o; try exact I; injection Hk as <- <-; exact (eq_sym Hv)).
      assert (Hn : snd (learns o x g) = k_value s1).
      { destruct o; try (cbn in Hk; injection Hk as <- <-; exact Hv).
        - cbn in Hk. injection Hk as <- <-. destruct e; exact Hv.
        - cbn in Hk. destruct (k_shell s); injection Hk as <- <-; exact Hv.
        - cbn in Hk. destruct (k_replies s); injection Hk as <- <-; exact Hv.
        - cbn in Hk. injection Hk as <- <-. reflexivity. }
      exact (IH x _ _ _ _ (H x Hh) Hn Hr).
  Qed.
  Lemma start_value u q s r : run (kernel_start E) (kinit u q) = (s, r) -> (forall why, r <> UB why) -> k_value s = None.
  Proof.
    intros H Hr. assert (X : wp (Idle, None) (kernel_start E) (fun g _ => calm g) calm) by (apply good_start; split; [discriminate|reflexivity]).
    pose proof (wp_run _ _ _ _ (kinit u q) _ _ X eq_refl H) as Y. destruct r; [| |now destruct (Hr why)]; destruct Y as (g & [_ G] & <-); exact G.
  Qed.
End Turns.

(** ** The counts *)
Lemma asks_app a b : asks (a ++ b) = asks a + asks b.
Proof. unfold asks. now rewrite filter_app, app_length. Qed.
Lemma arrivals_app a b : arrivals (a ++ b) = arrivals a + arrivals b.
Proof. unfold arrivals. now rewrite filter_app, app_length. Qed.
Lemma asks_repeat i : asks (repeat OArrive i) = 0.
Proof. induction i; auto. Qed.
Lemma asks_last l q i : asks (l ++ OAsk q :: repeat OArrive i) = S (asks l).
Proof. rewrite asks_app. change (OAsk q :: repeat OArrive i) with ([OAsk q] ++ repeat OArrive i)%list. rewrite asks_app, asks_repeat. cbn. lia. Qed.
Lemma last_snoc (l : list stdin_obs) q i : ((l ++ OAsk q :: repeat OArrive i) ++ [OArrive])%list = (l ++ OAsk q :: repeat OArrive (S i))%list.
Proof. rewrite <- app_assoc. cbn [app repeat]. now rewrite <- repeat_cons. Qed.

Section Run.
  Context {U : Type} (E : env U) (base : nat).
  Implicit Types (m : mem U) (g : gh).
  Lemma in_turn_snoc os o : in_turn E base os -> (forall h v, o = OInput h v -> exists q n, answered E base os q n v) -> in_turn E base (os ++ [o]).
  Proof.
    intros H Ho l1 h v l2 Hl. destruct l2 as [|x l2 _] using rev_ind.
    - apply app_inj_tail in Hl. destruct Hl as [<- ->]. now apply (Ho h).
    - rewrite app_comm_cons, app_assoc in Hl. apply app_inj_tail in Hl. destruct Hl as [-> _]. eapply H; reflexivity.
  Qed.
  Record inv (os : list stdin_obs) g m : Prop := {
    i_turn : match fst g with
      | Idle => k_stdin (m_k m) = base + asks os
      | Waiting => exists l q i, os = (l ++ OAsk q :: repeat OArrive i)%list /\ k_stdin (m_k m) = base + asks l
      | Got n => exists l q i, os = (l ++ OAsk q :: repeat OArrive i)%list /\ n = base + asks l /\ k_stdin (m_k m) = S n
      end;
    i_in : m_stdin m = base + arrivals os;
    i_le : k_stdin (m_k m) <= m_stdin m;
    i_val : snd g = k_value (m_k m);
    i_own : forall v, snd g = Some v -> v = "" \/ got_value E g v;
    i_ok : in_turn E base os
  }.
  Lemma inv_same os g m m' : inv os g m -> k_stdin (m_k m') = k_stdin (m_k m) -> k_value (m_k m') = k_value (m_k m) -> m_stdin m' = m_stdin m -> inv os g m'.
  Proof. intros [A B C D F G] H1 H2 H3. split; rewrite ?H1, ?H2, ?H3; auto. Qed.
  Lemma inv_answered os g m v : inv os g m -> got_value E g v -> exists q n, answered E base os q n v.
  Proof.
    intros [A B C _ _ _] (n & Hn & Hv). rewrite Hn in A. destruct A as (l & q & i & -> & -> & A). exists q, (asks l), l, i. repeat split; auto. lia.
  Qed.
  Definition op_obs (o : kop U) : list stdin_obs := match o with KEmit e => of_event e | _ => [] end.
  Lemma obs_label (o : kop U) x : of_label (op_label o x) = op_obs o.
  Proof. destruct o; try reflexivity; [destruct e; reflexivity|destruct x; reflexivity]. Qed.
  Lemma obs_slabel c (o : kop U) x : of_slabel (label_of c o x) = op_obs o.
  Proof. destruct o; try reflexivity. destruct x; reflexivity. Qed.
  Lemma apart_obs (o : kop U) : apart o -> op_obs o = [].
  Proof. destruct o; try reflexivity. destruct e; cbn; tauto. Qed.
  Lemma apart_mem (o : kop U) m m' x : apart o -> mop o m m' x ->
    k_stdin (m_k m') = k_stdin (m_k m) /\ k_value (m_k m') = k_value (m_k m) /\ m_stdin m' = m_stdin m.
  Proof.
    intros Ha H. destruct o; try contradiction; cbn [mop] in H.
    all: try match type of H with _ /\ _ => destruct H as [H _]; subst m'; auto end.
    - subst m'. destruct e; cbn in *; auto; contradiction.
    - subst m'. auto.
    - destruct (m_shellq m); destruct H as [H _]; subst m'; auto.
  Qed.
  Lemma inv_apart os g m m' (o : kop U) x : inv os g m -> apart o -> mop o m m' x -> inv (os ++ op_obs o) g m'.
  Proof. intros H Ha Hm. destruct (apart_mem o m m' x Ha Hm) as (A & B & C). rewrite (apart_obs o Ha), app_nil_r. eapply inv_same; eauto. Qed.
  Lemma hears_apart os g m m' (o : kop U) x : inv os g m -> mop o m m' x -> hears o x g.
  Proof. intros H Hm. destruct o; try exact I. destruct Hm as [_ ->]. cbn. symmetry. apply H. Qed.
  Lemma inv_op os g m m' (o : kop U) x : inv os g m -> may_do E o g -> mop o m m' x -> inv (os ++ op_obs o) (learns o x g) m'.
  Proof.
    intros H Hm Hs. destruct (match o as o return {apart o} + {~ apart o} with
      | KEmit (EStdin _ _) | KEmit (EInput _ _) | KStdin | KSetValue _ => right (fun x => x) | _ => left I end) as [Ha|Ha].
    { replace (learns o x g) with g; [eapply inv_apart; eauto|]. destruct o; try contradiction; try reflexivity. destruct e; try contradiction; reflexivity. }
    destruct o; try (destruct (Ha I)).
    - destruct e; try (destruct (Ha I)); cbn [mop] in Hs; subst m'; cbn [op_obs of_event learns may_do] in *.
      + destruct Hm as [Hw Hc]. destruct H as [A B C D F G]. split; cbn [fst snd].
        * exists os, m0, 0. split; [reflexivity|]. cbn. destruct (fst g) as [| |n]; [exact A|now destruct Hw|].
          destruct A as (l & q & i & -> & -> & A). rewrite asks_last. lia.
        * rewrite arrivals_app. cbn. lia.
        * exact C.
        * exact D.
        * intros v Hv. left. destruct Hc as [Hc|Hc]; congruence.
        * apply in_turn_snoc; auto. discriminate.
      + destruct Hm as [[Hw Hc] Hg]. pose proof (inv_answered _ _ _ _ H Hg) as Han. destruct H as [A B C D F G]. split; cbn [fst snd].
        * cbn. rewrite asks_app. cbn. destruct Hg as (n & Hn & _). rewrite Hn in A. destruct A as (l & q & i & -> & -> & A). rewrite asks_last. lia.
        * rewrite arrivals_app. cbn. lia.
        * exact C.
        * exact D.
        * intros v' Hv. left. destruct Hc as [Hc|Hc]; congruence.
        * apply in_turn_snoc; auto. intros h' v' [= <- <-]. exact Han.
    - destruct Hs as (Hlt & -> & ->). cbn [may_do op_obs] in *. rewrite app_nil_r. destruct H as [A B C D F G]. rewrite Hm in A. destruct A as (l & q & i & -> & A).
      split; cbn [learns fst snd].
      + exists l, q, i. cbn. auto.
      + exact B.
      + cbn. lia.
      + exact D.
      + intros v' Hv. destruct (F v' Hv) as [F'|(n & F' & _)]; auto. congruence.
      + exact G.
    - destruct Hs as [-> ->]. cbn [op_obs]. rewrite app_nil_r. destruct H as [A B C D F G]. split; cbn [learns fst snd]; auto.
      intros v' Hv. destruct v as [v|]; [|discriminate]. injection Hv as <-. destruct Hm as [_ [Hm|(n & Hm)]]; auto. right. exists n. exact Hm.
  Qed.
  Lemma inv_arrive os g m : inv os g m -> inv (os ++ [OArrive]) g (set_mstdin (S (m_stdin m)) m).
  Proof.
    intros [A B C D F G]. split; cbn [m_k m_stdin set_mstdin]; auto.
    - destruct (fst g) as [| |n].
      + rewrite asks_app. cbn. lia.
      + destruct A as (l & q & i & -> & A). exists l, q, (S i). split; auto. apply last_snoc.
      + destruct A as (l & q & i & -> & A). exists l, q, (S i). split; auto. apply last_snoc.
    - rewrite arrivals_app. cbn. lia.
    - apply in_turn_snoc; auto. discriminate.
  Qed.
  Lemma inv_own os g m : inv os g m -> own_value E base os (m_k m).
  Proof. intros H v Hv. rewrite <- (i_val _ _ _ H) in Hv. destruct (i_own _ _ _ H v Hv) as [|X]; auto. right. eapply inv_answered; eauto. Qed.
  Definition is_waiting (t : turn) : bool := match t with Waiting => true | _ => false end.
  Lemma inv_even os g m : inv os g m -> even base os (m_k m) (is_waiting (fst g)).
  Proof.
    intros [A B C _ _ _]. unfold even. rewrite B in C. split; auto. destruct (fst g); cbn.
    - lia.
    - destruct A as (l & q & i & -> & A). rewrite asks_last. lia.
    - destruct A as (l & q & i & -> & -> & A). rewrite asks_last. lia.
  Qed.
  Definition at_stdin {A} (p : kprog U A) : bool := match p with Do KStdin _ => true | _ => false end.
  Lemma wp_waits {A} g (p : kprog U A) : wp E g p (fun g _ => calm g) calm -> at_stdin p = is_waiting (fst g).
  Proof.
    destruct p as [a|e|w|o k]; cbn [wp at_stdin].
    1,2: intros [H _]; now destruct (fst g).
    - intros H. now destruct (fst g).
    - intros [H _]. destruct o; try match goal with e : event |- _ => destruct e | v : option string |- _ => destruct v end; cbn [may_do] in H;
        repeat match type of H with clean _ => destruct H as [H _] | _ /\ _ => destruct H as [H _] end; destruct (fst g); cbn; try reflexivity; congruence.
  Qed.
  Lemma inv_start os m : calm (Idle, k_value (m_k m)) -> k_stdin (m_k m) = base + asks os -> m_stdin m = base + arrivals os -> k_stdin (m_k m) <= m_stdin m ->
    in_turn E base os -> inv os (Idle, k_value (m_k m)) m.
  Proof. intros [_ B] H1 H2 H3 H4. split; cbn in *; auto. rewrite B. discriminate. Qed.

  (** *** The default server *)
  Let listener c w := dispatch E w c.
  Definition main_ok g (pc : mpc U) : Prop :=
    match pc with
    | MInControl p _ | MInShell p => wp E g p (fun g _ => calm g) calm
    | MCrash => fst g <> Waiting
    | _ => calm g
    end.
  Lemma main_inv os g s l s' : inv os g (d_mem s) -> main_ok g (d_pc s) -> main_step listener s l s' ->
    exists g', inv (os ++ of_label l) g' (d_mem s') /\ main_ok g' (d_pc s').
  Proof.
    intros H Hp Hs. destruct Hs; cbn [d_mem d_pc main_ok of_label] in *; rewrite ?app_nil_r.
    all: try (exists g; split; [first [exact H | eapply inv_same; [exact H|reflexivity|reflexivity|reflexivity]]|first [exact Hp|now apply good_dispatch|idtac]]; fail).
    - exists g. split; [exact H|]. now destruct rc.
    - exists (learns o x g). destruct Hp as [Hm Hk]. rewrite obs_label. split; [eapply inv_op; eauto|]. apply Hk. eapply hears_apart; eauto.
    - exists g. split; auto. destruct p; cbn in *; try contradiction; try apply Hp; auto.
    - exists g. split; auto. destruct (negb (m_stop m) && rs); auto.
    - exists (learns o x g). destruct Hp as [Hm Hk]. rewrite obs_label. split; [eapply inv_op; eauto|]. apply Hk. eapply hears_apart; eauto.
    - exists g. split; auto. destruct p; cbn in *; try contradiction; try apply Hp; auto.
  Qed.
  Lemma on_stdin_snoc ls l : on_stdin (ls ++ [l]) = (on_stdin ls ++ of_label l)%list.
  Proof. unfold on_stdin. rewrite flat_map_app. cbn. now rewrite app_nil_r. Qed.
  Lemma run_inv k0 start ls s : k_stdin k0 = base -> k_value k0 = None -> drun listener (d_init k0 start) ls s ->
    exists g, inv (on_stdin ls) g (d_mem s) /\ main_ok g (d_pc s).
  Proof.
    intros Hb Hv H. remember (d_init k0 start) as s0 eqn:E0. induction H as [|s0 ls s1 l s2 H IH Hs]; subst.
    - exists (Idle, k_value k0). split; [|split; [discriminate|exact Hv]]. apply (inv_start [] (d_mem (d_init k0 start))); cbn; try lia; [split; [discriminate|exact Hv]|].
      intros l1 h v l2 X. destruct l1; discriminate.
    - destruct (IH eq_refl) as (g & HI & HP). rewrite on_stdin_snoc. destruct Hs as [s l s' Hm| | | | | |].
      + exact (main_inv _ _ _ _ _ HI HP Hm).
      + exists g. cbn [of_label]. rewrite app_nil_r. split; [eapply inv_same; [exact HI|reflexivity|reflexivity|reflexivity]|exact HP].
      + exists g. cbn [of_label]. rewrite app_nil_r. split; [eapply inv_same; [exact HI|reflexivity|reflexivity|reflexivity]|exact HP].
      + exists g. cbn [of_label]. rewrite app_nil_r. split; [eapply inv_same; [exact HI|reflexivity|reflexivity|reflexivity]|exact HP].
      + exists g. cbn [of_label]. rewrite app_nil_r. split; [eapply inv_same; [exact HI|reflexivity|reflexivity|reflexivity]|exact HP].
      + exists g. cbn [of_label]. rewrite app_nil_r. split; [eapply inv_same; [exact HI|reflexivity|reflexivity|reflexivity]|exact HP].
      + exists g. split; [apply inv_arrive, HI|auto].
  Qed.
  Lemma main_waits g (s : dsys U) : main_ok g (d_pc s) -> d_waits s = is_waiting (fst g).
  Proof.
    unfold main_ok, d_waits. destruct (d_pc s); intros H.
    all: try (destruct H as [H _]; now destruct (fst g)).
    - apply wp_waits in H. rewrite <- H. destruct p as [| | |[]]; reflexivity.
    - apply wp_waits in H. rewrite <- H. destruct p as [| | |[]]; reflexivity.
    - now destruct (fst g).
  Qed.
  Lemma default_turns k0 start ls s : k_stdin k0 = base -> k_value k0 = None -> drun listener (d_init k0 start) ls s ->
    in_turn E base (on_stdin ls) /\ even base (on_stdin ls) (m_k (d_mem s)) (d_waits s) /\ own_value E base (on_stdin ls) (m_k (d_mem s)).
  Proof.
    intros Hb Hv H. destruct (run_inv k0 start ls s Hb Hv H) as (g & HI & HP). split; [apply HI|]. rewrite (main_waits g s HP). split; [now apply inv_even|eapply inv_own; eauto].
  Qed.

  (** *** The split servers, when only the shell thread uses the stdin socket *)
  Variable (v : variant) (Hsp : e_split E = true).
  Let internal := dispatch_internal E.
  Definition going_ok {A} g (p : going U A) : Prop :=
    match p with
    | Going p => wp E g p (fun g _ => calm g) calm
    | Calling k => fst g <> Waiting /\ forall x, wp E g (k x) (fun g _ => calm g) calm
    end.
  Definition shell_ok g (a : shpc U) : Prop := match a with SRun p _ => going_ok g p | SIntern p => going_ok g p | _ => calm g end.
  Definition control_ok (b : ctpc U) : Prop := match b with CRun p => going_ok (Idle, None) p | _ => True end.
  Lemma going_inv os g A (p : going U A) m l p' m' : inv os g m -> going_ok g p -> gstep SHELL p m l p' m' ->
    exists g', inv (os ++ of_slabel l) g' m' /\ going_ok g' p'.
  Proof.
    intros H Hp Hs. destruct Hs as [o k m m' x Ho|w k m Hc|k w m Hc]; cbn [going_ok of_slabel] in *; rewrite ?app_nil_r.
    - exists (learns o x g). destruct Hp as [Hm Hk]. rewrite obs_slabel. split; [eapply inv_op; eauto|]. apply Hk. eapply hears_apart; eauto.
    - exists g. split; [eapply inv_same; [exact H|reflexivity|reflexivity|reflexivity]|]. destruct Hp as [Hm Hk]. split; [exact Hm|]. intros x. now apply Hk.
    - exists g. split; [eapply inv_same; [exact H|reflexivity|reflexivity|reflexivity]|]. apply Hp.
  Qed.
  Lemma shell_inv os g a m l a' m' : inv os g m -> shell_ok g a -> shell_step listener internal a m l a' m' ->
    exists g', inv (os ++ of_slabel l) g' m' /\ shell_ok g' a'.
  Proof.
    intros H Hp Hs. destruct Hs; cbn [shell_ok of_slabel] in *; rewrite ?app_nil_r.
    all: try (exists g; split; [first [exact H | eapply inv_same; [exact H|reflexivity|reflexivity|reflexivity]]|first [exact Hp|now apply good_dispatch|now apply good_internal|idtac]]; fail).
    - eapply going_inv; eauto.
    - exists g. split; auto. destruct b; auto.
    - eapply going_inv; eauto.
  Qed.
  Lemma home_apart (o : kop U) : at_home CONTROL o -> may_do E o (Idle, None) -> apart o.
  Proof.
    intros H Hm. destruct o; try exact I.
    - destruct e; try exact I.
      + destruct (H PStdin true (or_introl eq_refl)) as [X|X]; discriminate.
      + destruct Hm as [_ (n & Hn & _)]. discriminate.
    - destruct (H PStdin true (or_introl eq_refl)) as [X|X]; discriminate.
    - destruct (H PValue true (or_introl eq_refl)) as [X|X]; discriminate.
  Qed.
  Lemma home_learns (o : kop U) x : at_home CONTROL o -> may_do E o (Idle, None) -> learns o x (Idle, None) = (Idle, None) /\ hears o x (Idle, None).
  Proof.
    intros H Hm. pose proof (home_apart o H Hm) as Ha. destruct o; try (split; [reflexivity|exact I]); try contradiction.
    - destruct e; try contradiction; split; try reflexivity; exact I.
    - destruct (H PValue false (or_introl eq_refl)) as [X|X]; discriminate.
  Qed.
  Lemma control_inv os g b m l b' m' : inv os g m -> control_ok b -> match b with CRun p => tame_going CONTROL p | _ => True end ->
    control_step listener b m l b' m' -> inv (os ++ of_slabel l) g m' /\ control_ok b'.
  Proof.
    intros H Hp Ht Hs. destruct Hs; cbn [control_ok of_slabel] in *; rewrite ?app_nil_r.
    all: try (split; [first [exact H | eapply inv_same; [exact H|reflexivity|reflexivity|reflexivity]]|first [exact I|apply good_dispatch; split; [discriminate|reflexivity]|idtac]]; fail).
    match goal with X : gstep _ _ _ _ _ _ |- _ => destruct X as [o k m m' x Ho|w k m Hc|k w m Hc] end; cbn [going_ok tame_going of_slabel] in *; rewrite ?app_nil_r.
    - destruct Hp as [Hm Hk]. destruct Ht as [Hh _]. rewrite obs_slabel. split; [eapply inv_apart; eauto using home_apart|].
      destruct (home_learns o x Hh Hm) as [L1 L2]. specialize (Hk x L2). now rewrite L1 in Hk.
    - split; [eapply inv_same; [exact H|reflexivity|reflexivity|reflexivity]|]. destruct Hp as [Hm Hk]. split; [exact Hm|]. intros x. now apply Hk.
    - split; [eapply inv_same; [exact H|reflexivity|reflexivity|reflexivity]|]. apply Hp.
  Qed.
  Lemma y_on_stdin_snoc ls l : y_on_stdin (ls ++ [l]) = (y_on_stdin ls ++ of_slabel l)%list.
  Proof. unfold y_on_stdin. rewrite flat_map_app. cbn. now rewrite app_nil_r. Qed.
  Lemma yrun_inv k0 start ls s : k_stdin k0 = base -> k_value k0 = None -> (forall c w, In (YArrive c w) ls -> well_placed E c w) ->
    yrun v listener internal (y_init k0 start) ls s ->
    exists g, inv (y_on_stdin ls) g (y_mem s) /\ shell_ok g (y_sh s) /\ control_ok (y_ct s).
  Proof.
    intros Hb Hv Hw H. remember (y_init k0 start) as s0 eqn:E0. induction H as [|s0 ls s1 l s2 H IH Hs]; subst.
    - exists (Idle, k_value k0). split; [|split; [split; [discriminate|exact Hv]|exact I]]. apply (inv_start [] (y_mem (y_init k0 start))); cbn; try lia; [split; [discriminate|exact Hv]|].
      intros l1 h v' l2 X. destruct l1; discriminate.
    - assert (Hw' : forall c w, In (YArrive c w) ls -> well_placed E c w) by (intros; apply Hw, in_or_app; auto).
      destruct (IH Hw' eq_refl) as (g & HI & HP & HC). rewrite y_on_stdin_snoc.
      pose proof (SplitRace.run_inv v E k0 start Hsp ls s1 H Hw') as (_ & HT & _).
      destruct Hs; cbn [y_mem y_sh y_ct] in *.
      + match goal with X : shell_step _ _ _ _ _ _ _ |- _ => destruct (shell_inv _ _ _ _ _ _ _ HI HP X) as (g' & A & B) end. exists g'. auto.
      + match goal with X : control_step _ _ _ _ _ _ |- _ => destruct (control_inv _ _ _ _ _ _ _ HI HC HT X) as (A & B) end. exists g. auto.
      + exists g. cbn [of_slabel]. rewrite app_nil_r. auto.
      + exists g. cbn [of_slabel]. rewrite app_nil_r. auto.
      + exists g. cbn [of_slabel]. rewrite app_nil_r. auto.
      + exists g. cbn [of_slabel]. rewrite app_nil_r. auto.
      + exists g. cbn [of_slabel]. rewrite app_nil_r. auto.
      + exists g. cbn [of_slabel]. rewrite app_nil_r. split; [eapply inv_same; [exact HI|reflexivity|reflexivity|reflexivity]|auto].
      + exists g. cbn [of_slabel]. rewrite app_nil_r. split; [eapply inv_same; [exact HI|reflexivity|reflexivity|reflexivity]|auto].
      + exists g. cbn [of_slabel]. rewrite app_nil_r. split; [destruct ch; (eapply inv_same; [exact HI|reflexivity|reflexivity|reflexivity])|auto].
      + exists g. cbn [of_slabel]. rewrite app_nil_r. split; [eapply inv_same; [exact HI|reflexivity|reflexivity|reflexivity]|auto].
      + exists g. split; [apply inv_arrive, HI|auto].
  Qed.
  Lemma shell_waits g (s : ysys U) : shell_ok g (y_sh s) -> y_waits s = is_waiting (fst g).
  Proof.
    unfold shell_ok, y_waits. destruct (y_sh s) as [| |p b| |p| |]; intros H.
    all: try (destruct H as [H _]; now destruct (fst g)).
    - destruct p as [p|k]; [|destruct H as [H _]; now destruct (fst g)]. apply wp_waits in H. rewrite <- H. destruct p as [| | |[]]; reflexivity.
    - destruct p as [p|k]; [|destruct H as [H _]; now destruct (fst g)]. apply wp_waits in H. rewrite <- H. destruct p as [| | |[]]; reflexivity.
  Qed.
  Lemma split_turns k0 start ls s : k_stdin k0 = base -> k_value k0 = None -> (forall c w, In (YArrive c w) ls -> well_placed E c w) ->
    yrun v listener internal (y_init k0 start) ls s ->
    in_turn E base (y_on_stdin ls) /\ even base (y_on_stdin ls) (m_k (y_mem s)) (y_waits s) /\ own_value E base (y_on_stdin ls) (m_k (y_mem s)).
  Proof.
    intros Hb Hv Hw H. destruct (yrun_inv k0 start ls s Hb Hv Hw H) as (g & HI & HP & _). split; [apply HI|]. rewrite (shell_waits g s HP). split; [now apply inv_even|eapply inv_own; eauto].
  Qed.
End Run.

(** ** Polite clients *)
Section Polite.
  Context {U : Type} (E : env U) (base : nat).
  Lemma arrivals_repeat i : arrivals (repeat OArrive i) = i.
  Proof. induction i as [|i IH]; auto. unfold arrivals in *. cbn. auto. Qed.
  Lemma polite_prefix os os' : polite E base (os ++ os') -> polite E base os.
  Proof.
    intros [A B]. split.
    - intros l1 l2 ->. apply (A l1 (l2 ++ os')). now rewrite <- app_assoc.
    - intros n q (l1 & l2 & -> & Hn) Hl. apply (B n q); [exists l1, (l2 ++ os')%list; rewrite <- app_assoc; auto|]. rewrite arrivals_app. lia.
  Qed.
  Lemma after_le os : after_request os -> arrivals os <= asks os.
  Proof.
    induction os as [|o os IH] using rev_ind; intros H; [auto|]. rewrite arrivals_app, asks_app.
    assert (H' : after_request os) by (intros l1 l2 ->; apply (H l1 (l2 ++ [o])%list); now rewrite <- app_assoc).
    specialize (IH H'). destruct o; cbn; try lia. specialize (H os [] eq_refl). lia.
  Qed.
  Lemma answered_own os q n v : polite E base os -> answered E base os q n v -> own_answer E base os v.
  Proof.
    intros HP (l & i & -> & <- & Hn & Hv). exists l, q, i, (asks l). split; auto.
    assert (X : arrivals l <= asks l) by (apply after_le; eapply (polite_prefix l); exact HP).
    pose proof Hn as Hn'. rewrite arrivals_app in Hn'. change (OAsk q :: repeat OArrive i) with ([OAsk q] ++ repeat OArrive i)%list in Hn'. rewrite arrivals_app, arrivals_repeat in Hn'. cbn in Hn'.
    split; [lia|]. split; auto. apply HP; [|exact Hn]. exists l, (repeat OArrive i). auto.
  Qed.
  Lemma polite_turns os : polite E base os -> in_turn E base os -> forall l1 h v l2, os = (l1 ++ OInput h v :: l2)%list -> own_answer E base l1 v.
  Proof. intros HP HT l1 h v l2 ->. destruct (HT l1 h v l2 eq_refl) as (q & n & H). eapply answered_own; eauto. eapply polite_prefix; eauto. Qed.
  Lemma polite_value os (k : kstate U) : polite E base os -> own_value E base os k -> forall v, k_value k = Some v -> v = "" \/ own_answer E base os v.
  Proof. intros HP HO v Hv. destruct (HO v Hv) as [|(q & n & H)]; auto. right. eapply answered_own; eauto. Qed.
End Polite.
