(** Breakpoints, stopped threads and the state of the debugger over histories. *)
From Verif Require Import Base BaseFacts Json JsonText JsonTextProofs Auth Message MessageProofs Dap DapSpec DapProofs DapQueue DapMain Debugger DebuggerSpec DebuggerProofs.

(** ** Stopped threads *)
Lemma zinsert_in z l t : In t (zinsert z l) <-> t = z \/ In t l.
Proof.
  induction l as [|x l IH]; cbn; [intuition|]. destruct (Z.ltb_spec z x); cbn; [intuition|]. destruct (Z.eqb_spec z x) as [->|]; cbn; [intuition|]. rewrite IH. intuition.
Qed.
Lemma zremove_in z l t : In t (zremove z l) <-> t <> z /\ In t l.
Proof. unfold zremove. rewrite filter_In. destruct (Z.eqb_spec t z); cbn; intuition. Qed.
Lemma zinsert_sorted z l : zsorted l -> zsorted (zinsert z l).
Proof.
  induction 1 as [|x l H S IH]; cbn; [constructor; [intros y []|constructor]|]. destruct (Z.ltb_spec z x).
  - constructor; [|now constructor]. intros y [<-|Hy]; [auto|]. specialize (H y Hy). lia.
  - destruct (Z.eqb_spec z x); [now constructor|]. constructor; auto. intros y Hy. apply zinsert_in in Hy as [->|Hy]; [lia|auto].
Qed.
Lemma zremove_sorted z l : zsorted l -> zsorted (zremove z l).
Proof.
  induction 1 as [|x l H S IH]; cbn; [constructor|]. destruct (Z.eqb_spec x z); cbn; auto. constructor; auto. intros y Hy. apply zremove_in in Hy as [_ Hy]. auto.
Qed.

Lemma stopped_app l a t : is_stopped (l ++ [a]) t <->
  (exists j, a = DEvent j /\ thread_event j "stopped" t) \/ (is_stopped l t /\ a <> DStop /\ forall j, a = DEvent j -> ~ thread_event j "continued" t).
Proof.
  split.
  - intros (u & j & b & E & S & N & C). apply snoc_split in E as [(b' & -> & ->)|(-> & <- & ->)].
    + right. split; [|split].
      * exists u, j, b'. split; auto. split; auto. split; [intros H; apply N; apply in_app_iff; auto|]. intros j' Hj. apply C. apply in_app_iff. auto.
      * intros ->. apply N. apply in_app_iff. right. now left.
      * intros j' ->. apply C. apply in_app_iff. right. now left.
    + left. eauto.
  - intros [(j & -> & S)|((u & j & b & -> & S & N & C) & Na & Ca)].
    + exists l, j, []. repeat split; auto; try apply S; intros j' [].
    + exists u, j, (b ++ [a])%list. split; [now rewrite <- app_assoc|]. split; auto. split.
      * intros H. apply in_app_iff in H as [H|[H|[]]]; auto.
      * intros j' H. apply in_app_iff in H as [H|[H|[]]]; eauto.
Qed.
Lemma thread_event_both j t t' : thread_event j "stopped" t -> thread_event j "continued" t' -> False.
Proof. intros [H _] [H' _]. congruence. Qed.
Lemma thread_event_fun j n t t' : thread_event j n t -> thread_event j n t' -> t = t'.
Proof. intros [_ (b & v & H1 & H2 & H3)] [_ (b' & v' & H1' & H2' & H3')]. congruence. Qed.
Lemma event_thread_ok j t : event_thread j = Ok t <-> exists body v, jfield "body" j = Some body /\ jfield "threadId" body = Some v /\ get_int v = Ok t.
Proof.
  unfold event_thread. split.
  - destruct (jget "body" j) as [b| |] eqn:B; try discriminate. cbn [bind]. destruct (jget "threadId" b) as [v| |] eqn:V; try discriminate. cbn [bind].
    intros H. apply jget_ok in B, V. eauto.
  - intros (b & v & B & V & H). apply jget_ok in B, V. rewrite B. cbn [bind]. rewrite V. exact H.
Qed.
Lemma thread_event_iff j n t : thread_event j n t <-> jfield "event" j = Some (JStr n) /\ event_thread j = Ok t.
Proof. unfold thread_event. now rewrite event_thread_ok. Qed.

Definition threads_ok (d : dbg) : Prop := zsorted (d_threads d) /\ forall t, In t (d_threads d) <-> is_stopped (d_log d) t.
Lemma threads_log d a : (forall j, a <> DEvent j) -> a <> DStop -> threads_ok d -> threads_ok (dlog a d).
Proof.
  intros Na Ns [S H]. split; auto. intros t. cbn. rewrite stopped_app, H. split.
  - intros Hs. right. split; auto. split; auto. intros j ->. now elim (Na j).
  - intros [(j & -> & _)|[Hs _]]; auto. now elim (Na j).
Qed.
Lemma in_existsb s l : existsb (String.eqb s) l = true <-> In s l.
Proof. rewrite existsb_exists. split; [intros (x & H & E); apply String.eqb_eq in E; now subst|]. intros H. exists s. split; auto. apply String.eqb_refl. Qed.
Lemma threads_event E d j d' : threads_left E -> threads_ok d ->
  (handle_debug_event E j (dlog (DEvent j) d) = Ok d' \/ (exists e, handle_debug_event E j (dlog (DEvent j) d) = Exn e /\ d' = dlog (DEvent j) d)) -> threads_ok d'.
Proof.
  intros [L1 L2] [S H] Hh.
  assert (Same : (forall t, ~ thread_event j "stopped" t) -> (forall t, ~ thread_event j "continued" t) -> threads_ok (dlog (DEvent j) d)).
  { intros N1 N2. split; auto. intros t. cbn. rewrite stopped_app, H. split.
    - intros Hs. right. split; auto. split; [discriminate|]. intros j' [= <-]. apply N2.
    - intros [(j' & [= <-] & Hj)|[Hs _]]; auto. now elim (N1 t). }
  unfold handle_debug_event in Hh.
  destruct (jget "event" j) as [e| |] eqn:Ej; cbn [bind] in Hh.
  2:{ destruct Hh as [Hh|(e' & _ & ->)]; [discriminate|]. apply Same; intros t [T _]; apply jget_ok in T; congruence. }
  2:{ destruct Hh as [Hh|(e' & Hh & _)]; discriminate. }
  destruct (get_string e) as [ev| |] eqn:Es; cbn [bind] in Hh.
  2:{ destruct Hh as [Hh|(e' & _ & ->)]; [discriminate|]. apply Same; intros t [T _]; apply jget_ok in T; rewrite T in Ej; injection Ej as <-; discriminate. }
  2:{ destruct Hh as [Hh|(e' & Hh & _)]; discriminate. }
  apply get_string_ok in Es. subst e. apply jget_ok in Ej.
  destruct (existsb (String.eqb ev) (dn_event_regs E)) eqn:X.
  { apply in_existsb in X. destruct Hh as [Hh|(e' & Hh & _)]; [|discriminate]. injection Hh as <-. apply Same; intros t [T _]; rewrite Ej in T; injection T as ->; contradiction. }
  destruct (String.eqb_spec ev "continued") as [->|N1].
  { destruct (event_thread j) as [id| |] eqn:T; cbn [bind] in Hh.
    - destruct Hh as [Hh|(e' & Hh & _)]; [|discriminate]. injection Hh as <-. assert (Te : thread_event j "continued" id) by (apply thread_event_iff; auto).
      split; cbn; [now apply zremove_sorted|]. intros t. rewrite zremove_in, stopped_app, H. split.
      + intros [Nt Hs]. right. split; auto. split; [discriminate|]. intros j' [= <-] Hc. apply Nt. eapply thread_event_fun; eauto.
      + intros [(j' & [= <-] & Hj)|(Hs & _ & Hc)]; [exfalso; eauto using thread_event_both|]. split; auto. intros ->. exact (Hc j eq_refl Te).
    - destruct Hh as [Hh|(e' & _ & ->)]; [discriminate|]. apply Same; intros t Ht; apply thread_event_iff in Ht as [_ Ht]; congruence.
    - destruct Hh as [Hh|(e' & Hh & _)]; discriminate. }
  destruct (String.eqb_spec ev "stopped") as [->|N2].
  { destruct (event_thread j) as [id| |] eqn:T; cbn [bind] in Hh.
    - destruct Hh as [Hh|(e' & Hh & _)]; [|discriminate]. injection Hh as <-. assert (Te : thread_event j "stopped" id) by (apply thread_event_iff; auto).
      split; cbn; [now apply zinsert_sorted|]. intros t. rewrite zinsert_in, stopped_app, H. split.
      + intros [->|Hs]; [left; eauto|]. right. split; auto. split; [discriminate|]. intros j' [= <-] Hc. eauto using thread_event_both.
      + intros [(j' & [= <-] & Hj)|(Hs & _)]; [left; eapply thread_event_fun; eauto|auto].
    - destruct Hh as [Hh|(e' & _ & ->)]; [discriminate|]. apply Same; intros t Ht; apply thread_event_iff in Ht as [_ Ht]; congruence.
    - destruct Hh as [Hh|(e' & Hh & _)]; discriminate. }
  destruct Hh as [Hh|(e' & Hh & _)]; [|discriminate]. injection Hh as <-. apply Same; intros t [T _]; rewrite Ej in T; injection T as ->; contradiction.
Qed.
Theorem threads_history E fs l d : threads_left E -> sendable l -> history E (d_init fs) l d -> threads_ok d.
Proof.
  intros L Hs. apply (pres_history E threads_ok); auto.
  - intros d0 j d' H Hh. eapply threads_event; eauto.
  - intros. now apply threads_log.
  - intros. now apply threads_log.
  - intros. now apply threads_log.
  - intros. apply (threads_log (d_set_bps _ d0)); [discriminate|discriminate|exact H].
  - intros. apply (threads_log (d_set_started _ d0)); [discriminate|discriminate|exact H].
  - intros d0 _. split; cbn; [constructor|]. intros t. split; [intros []|]. rewrite stopped_app. intros [(j & H & _)|(_ & H & _)]; [discriminate|now elim H].
  - split; [constructor|]. intros t. split; [intros []|]. intros (a & j & b & H & _). destruct a; discriminate.
Qed.

(** ** Breakpoints *)
Lemma in_force_app l a src bps : in_force (l ++ [a]) src bps <->
  (exists m f, a = DSend m f /\ sets_breakpoints m src bps) \/
  (in_force l src bps /\ a <> DStop /\ forall m f bps', a = DSend m f -> ~ sets_breakpoints m src bps').
Proof.
  split.
  - intros (u & m & f & b & E & S & N & C). apply snoc_split in E as [(b' & -> & ->)|(-> & <- & ->)].
    + right. split; [|split].
      * exists u, m, f, b'. split; auto. split; auto. split; [intros H; apply N; apply in_app_iff; auto|]. intros m' f' bps' Hj. apply (C m' f'). apply in_app_iff. auto.
      * intros ->. apply N. apply in_app_iff. right. now left.
      * intros m' f' bps' ->. apply (C m' f'). apply in_app_iff. right. now left.
    + left. eauto.
  - intros [(m & f & -> & S)|((u & m & f & b & -> & S & N & C) & Na & Ca)].
    + exists l, m, f, []. repeat split; auto; try apply S; intros m' f' bps' [].
    + exists u, m, f, (b ++ [a])%list. split; [now rewrite <- app_assoc|]. split; auto. split.
      * intros H. apply in_app_iff in H as [H|[H|[]]]; auto.
      * intros m' f' bps' H. apply in_app_iff in H as [H|[H|[]]]; eauto.
Qed.
Lemma sets_fun m src bps src' bps' : sets_breakpoints m src bps -> sets_breakpoints m src' bps' -> src = src' /\ bps = bps'.
Proof. intros (_ & a & s & v & H1 & H2 & H3 & H4 & ->) (_ & a' & s' & v' & H1' & H2' & H3' & H4' & ->). split; congruence. Qed.
Definition bps_ok (d : dbg) : Prop := msorted (d_bps d) = true /\ forall src bps, mfind src (d_bps d) = Some bps <-> in_force (d_log d) src bps.
Lemma bps_log d a : a <> DStop -> (forall m f src bps, a = DSend m f -> ~ sets_breakpoints m src bps) -> bps_ok d -> bps_ok (dlog a d).
Proof.
  intros Ns Na [S H]. split; auto. intros src bps. cbn. rewrite in_force_app, H. split.
  - intros Hs. right. split; auto. split; eauto.
  - intros [(m & f & -> & Hs)|[Hs _]]; auto. now elim (Na m f src bps eq_refl).
Qed.
Theorem bps_history E fs l d : breakpoints_left E -> sendable l -> history E (d_init fs) l d -> bps_ok d.
Proof.
  intros L Hs. apply (pres_history E bps_ok); auto.
  - intros d0 j d' H Hh. assert (H1 : bps_ok (dlog (DEvent j) d0)) by (apply bps_log; auto; discriminate).
    destruct Hh as [Hh|(e & _ & ->)]; auto. apply handle_event_shape in Hh as [th ->]. exact H1.
  - intros. apply bps_log; auto; discriminate.
  - intros. apply bps_log; auto; discriminate.
  - intros d0 m t H _ _ Nm. apply bps_log; auto; [discriminate|]. intros m' f src bps [= <- _] [Hc _]. now elim (Nm L).
  - intros d0 m t src bps [S H] _ _ Hb. split; cbn; [now apply mset_sorted, mdel_sorted|]. intros src' bps'. rewrite in_force_app, mfind_mset, mfind_mdel by auto.
    destruct (String.eqb_spec src' src) as [->|N].
    + split.
      * intros [= <-]. left. eauto.
      * intros [(m' & f & [= <- _] & Hm)|(_ & _ & Hm)]; [|now elim (Hm m (dap_frame t) bps eq_refl)]. f_equal. eapply sets_fun; eauto.
    + rewrite H. split.
      * intros Hf. right. split; auto. split; [discriminate|]. intros m' f bps2 [= <- _] Hm. apply N. eapply sets_fun; eauto.
      * intros [(m' & f & [= <- _] & Hm)|[Hf _]]; auto. elim N. eapply sets_fun; eauto.
  - intros d0 ok H _. apply (bps_log (d_set_started ok d0)); auto; discriminate.
  - intros d0 _. split; cbn; auto. intros src bps. split; [discriminate|]. rewrite in_force_app. intros [(m & f & H & _)|(_ & H & _)]; [discriminate|now elim H].
  - split; auto. intros src bps. split; [discriminate|]. intros (a & m & f & b & H & _). destruct a; discriminate.
Qed.

(** ** Started *)
Lemma started_app l a : is_started (l ++ [a]) <-> a = DStart true \/ (is_started l /\ a <> DStop).
Proof.
  split.
  - intros (u & b & E & N). apply snoc_split in E as [(b' & -> & ->)|(-> & E & ->)]; [|auto]. right. split.
    + exists u, b'. split; auto. intros H. apply N. apply in_app_iff. auto.
    + intros ->. apply N. apply in_app_iff. right. now left.
  - intros [->|[(u & b & -> & N) Na]].
    + exists l, []. split; auto.
    + exists u, (b ++ [a])%list. split; [now rewrite <- app_assoc|]. intros H. apply in_app_iff in H as [H|[H|[]]]; auto.
Qed.
Definition gate_ok (strict : Prop) (d : dbg) : Prop :=
  (d_started d = true <-> is_started (d_log d)) /\ (strict -> forall a x b, d_log d = (a ++ x :: b)%list -> to_adapter x -> is_started a).
Lemma gate_log (strict : Prop) d x : (forall ok, x <> DStart ok) -> x <> DStop -> (to_adapter x -> strict -> d_started d = true) -> gate_ok strict d -> gate_ok strict (dlog x d).
Proof.
  intros N1 N2 Ht [S H]. split; cbn.
  - rewrite started_app, S. split; [auto|]. intros [->|[Hs _]]; auto. now elim (N1 true).
  - intros St a y b E Hy. apply snoc_split in E as [(b' & -> & E)|(-> & -> & <-)]; [eauto|]. apply S. auto.
Qed.
Theorem gate_history E fs l d : sendable l -> history E (d_init fs) l d -> gate_ok (only_started E) d.
Proof.
  intros Hs. apply (pres_history E (gate_ok (only_started E))); auto.
  - intros d0 j d' H Hh. assert (H1 : gate_ok (only_started E) (dlog (DEvent j) d0)) by (apply gate_log; auto; try discriminate; intros []).
    destruct Hh as [Hh|(e & _ & ->)]; auto. apply handle_event_shape in Hh as [th ->]. exact H1.
  - intros. apply gate_log; auto; try discriminate; intros [].
  - intros. apply gate_log; auto; discriminate.
  - intros d0 m t H Ho _ _. apply gate_log; auto; discriminate.
  - intros d0 m t src bps H Ho _ _. apply (gate_log (only_started E) (d_set_bps _ d0)); auto; discriminate.
  - intros d0 ok [S H] St. split; cbn.
    + rewrite started_app. split; [intros ->; auto|]. intros [[= ->]|[Hs' _]]; auto. apply S in Hs'. congruence.
    + intros Sc a y b E0 Hy. apply snoc_split in E0 as [(b' & -> & E0)|(-> & -> & _)]; [eauto|elim Hy].
  - intros d0 [S H]. split; cbn.
    + rewrite started_app. split; [discriminate|]. intros [Hx|[_ Hx]]; [discriminate|now elim Hx].
    + intros Sc a y b E0 Hy. apply snoc_split in E0 as [(b' & -> & E0)|(-> & -> & _)]; [eauto|elim Hy].
  - split; cbn; [split; [discriminate|]; intros (a & b & H & _); destruct a; discriminate|]. intros _ a x b H. destruct a; discriminate.
Qed.

(** ** Frames *)
Definition frames_ok (d : dbg) : Prop := forall m f, In (DSend m f) (d_log d) -> exists t, dump EStrict m = Ok t /\ f = dap_frame t.
Lemma frames_log d x : (forall m f, x = DSend m f -> exists t, dump EStrict m = Ok t /\ f = dap_frame t) -> frames_ok d -> frames_ok (dlog x d).
Proof. intros Hx H m f Hin. cbn in Hin. apply in_app_iff in Hin as [Hin|[Hin|[]]]; auto. Qed.
Theorem frames_history E fs l d : sendable l -> history E (d_init fs) l d -> frames_ok d.
Proof.
  intros Hs. apply (pres_history E frames_ok); auto.
  - intros d0 j d' H Hh. assert (H1 : frames_ok (dlog (DEvent j) d0)) by (apply frames_log; auto; discriminate).
    destruct Hh as [Hh|(e & _ & ->)]; auto. apply handle_event_shape in Hh as [th ->]. exact H1.
  - intros. apply frames_log; auto; discriminate.
  - intros. apply frames_log; auto; discriminate.
  - intros d0 m t H _ D _. apply frames_log; auto. intros m' f [= <- <-]. eauto.
  - intros d0 m t src bps H _ D _. apply (frames_log (d_set_bps _ d0)); auto. intros m' f [= <- <-]. eauto.
  - intros d0 ok H _. apply (frames_log (d_set_started ok d0)); auto; discriminate.
  - intros d0 H. apply (frames_log (d_set_started false (d_set_threads [] (d_set_bps [] d0)))); auto; discriminate.
  - intros m f [].
Qed.
