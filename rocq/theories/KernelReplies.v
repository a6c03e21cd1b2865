(** Well-formed requests are answered. *)
From Verif Require Import Base BaseFacts Json JsonText Utf8 Utf8Proofs JsonTextProofs Auth Message MessageProofs WireSpec History HistoryProofs Comm CommSpec CommProofs Tree Kernel KernelSpec KernelProofs KernelRun KernelHandlers KernelExec KernelDispatch KernelLemmas KernelExecProps.

(** The loop of comm_info_request. *)
Lemma comm_infos_spec name cs r : NoDup (List.map (fun e => fst (snd e)) (targets cs)) -> msorted r = true ->
  (forall id a, In (id, a) r -> exists t, points_to cs a t) ->
  forall m, msorted m = true -> (forall id, mfind id r <> None -> mfind id m = None) ->
  exists m', comm_infos name cs r (JObj m) = Ok (JObj m') /\ msorted m' = true /\
    forall id v, mfind id m' = Some v <-> mfind id m = Some v \/
      exists a t, mfind id r = Some a /\ points_to cs a t /\ (name = "" \/ t_name t = name) /\ v = JObj [("target_name", JStr (t_name t))].
Proof.
  intros Hn. induction r as [|[id a] r IH]; intros Hs Hl m Hm Hd.
  - exists m. split; [reflexivity|]. split; auto. intros i v. split; auto. intros [H|(b & t & [=] & _)]; auto.
  - apply msorted_cons in Hs as [Hab Hs]. destruct (Hl id a (or_introl eq_refl)) as [t Ht].
    destruct (points_to_deref _ _ _ Hn Ht) as (c & Hc & Htt). cbn [comm_infos]. rewrite Hc. cbn [bind]. rewrite Htt. cbn [bind].
    pose proof (mabove_find _ _ Hab) as Hnone.
    assert (Hrest : forall i, mfind i r <> None -> mfind i ((id, a) :: r) <> None).
    { intros i Hi. cbn [mfind]. destruct (String.eqb i id); [discriminate | exact Hi]. }
    assert (Hother : forall i, i <> id -> mfind i ((id, a) :: r) = mfind i r).
    { intros i Hi. cbn [mfind]. apply String.eqb_neq in Hi. now rewrite Hi. }
    assert (Hsame : mfind id ((id, a) :: r) = Some a) by (cbn [mfind]; now rewrite String.eqb_refl).
    destruct ((name =? "")%string || (t_name t =? name)%string) eqn:Hb.
    + assert (Hb' : name = "" \/ t_name t = name).
      { apply orb_true_iff in Hb as [Hb|Hb]; apply String.eqb_eq in Hb; auto. }
      cbn [jset bind]. destruct (IH Hs (fun i b Hi => Hl i b (or_intror Hi)) (mset id (JObj [("target_name", JStr (t_name t))]) m)) as (m' & Hr & Hs' & Hf).
      { now apply mset_sorted. }
      { intros i Hi. rewrite mfind_mset. destruct (String.eqb_spec i id) as [->|Hne]; [congruence|]. apply Hd. auto. }
      exists m'. split; [exact Hr|]. split; auto. intros i v. rewrite Hf, mfind_mset.
      destruct (String.eqb_spec i id) as [->|Hne].
      * rewrite Hnone, Hsame, (Hd id) by (rewrite Hsame; discriminate). split.
        -- intros [[= <-]|(b & u & [=] & _)]. right. eauto 8.
        -- intros [[=]|(b & u & [= <-] & Hu & _ & ->)]. left. now rewrite (points_to_fun _ _ _ _ Hn Ht Hu).
      * now rewrite (Hother i Hne).
    + cbn [bind]. destruct (IH Hs (fun i b Hi => Hl i b (or_intror Hi)) m Hm) as (m' & Hr & Hs' & Hf); [auto|].
      exists m'. split; [exact Hr|]. split; auto. intros i v. rewrite Hf. destruct (String.eqb_spec i id) as [->|Hne].
      * rewrite Hnone, Hsame. split; [intros [H|(b & u & [=] & _)]; auto|]. intros [H|(b & u & [= <-] & Hu & Hx & _)]; auto.
        exfalso. rewrite <- (points_to_fun _ _ _ _ Hn Ht Hu) in Hx. apply orb_false_iff in Hb as [B1 B2].
        apply String.eqb_neq in B1. apply String.eqb_neq in B2. tauto.
      * now rewrite (Hother i Hne).
Qed.
Lemma comm_infos_listing name cs : listable cs -> exists j, comm_infos name cs (registry cs) (JObj []) = Ok j /\ listing cs name j.
Proof.
  intros [H1 H2 H3]. destruct (comm_infos_spec name cs (registry cs) H2 H1 H3 [] eq_refl (fun _ _ => eq_refl)) as (m & Hr & Hs & Hf).
  exists (JObj m). split; auto. exists m. split; auto. split; auto. intros id v. rewrite Hf. split; [intros [[=]|H]; exact H | auto].
Qed.

Section Replies.
  Context {U : Type} (E : env U) (raw : string -> Prop).
  Implicit Types (s : kstate U).

  (** The headers stored are valid UTF-8. *)
  Definition parents_utf8 s : Prop := forall c, utf8_json (k_phdr s c).
  (** The interpreter returns a value satisfying [P] whatever the state. *)
  Definition returns {A} (t : ucode U A) (P : A -> Prop) : Prop :=
    forall s, parents_utf8 s -> exists s' j, run (embed E t) s = (s', Ok j) /\ P j.
  (** [j] is a value the interpreter returns for the request. *)
  Definition answer {A} (t : ucode U A) (j : A) : Prop := exists s s', run (embed E t) s = (s', Ok j).
  (** The same, in a state with such parents. *)
  Definition parented_answer {A} (t : ucode U A) (j : A) : Prop := exists s s', parents_utf8 s /\ run (embed E t) s = (s', Ok j).

  (** The same for the debugger. *)
  Definition returns2 {A} (t : ucode2 U A) (P : A -> Prop) : Prop :=
    forall s, parents_utf8 s -> exists s' j, run (embed2 E t) s = (s', Ok j) /\ P j.
  Definition answer2 {A} (t : ucode2 U A) (j : A) : Prop := exists s s', parents_utf8 s /\ run (embed2 E t) s = (s', Ok j).

  (** [well_formed s ty content P]: a request of type [ty] with this content is well formed, and
      [P] says what the content of its reply must be. *)
  Inductive well_formed s (h : json) : string -> json -> (json -> Prop) -> Prop :=
  | wf_execute ct p : exec_params ct p -> x_silent p = true \/ k_count s <> int_max ->
      let n := if x_silent p then k_count s else (k_count s + 1)%Z in
      let call := e_interp E (RExecute n (x_code p) (x_silent p) (stores p) (x_ue p) (x_stdin p)) in
      returns call (fun j => utf8_json j /\ exists m st, j = JObj m /\ mfind "status" m = Some (JStr st)) ->
      well_formed s h "execute_request" ct
        (fun j => exists m, parented_answer call (JObj m) /\ j = JObj (mset "execution_count" (JInt n) m))
  | wf_complete m code pos : str_field m "code" "" code -> num_field m "cursor_pos" (-1) pos ->
      returns (e_interp E (RComplete code pos)) utf8_json ->
      well_formed s h "complete_request" (JObj m) (parented_answer (e_interp E (RComplete code pos)))
  | wf_inspect m code pos lvl : str_field m "code" "" code -> num_field m "cursor_pos" (-1) pos -> num_field m "detail_level" 0 lvl ->
      returns (e_interp E (RInspect code pos lvl)) utf8_json ->
      well_formed s h "inspect_request" (JObj m) (parented_answer (e_interp E (RInspect code pos lvl)))
  | wf_is_complete m code : str_field m "code" "" code ->
      returns (e_interp E (RIsComplete code)) utf8_json ->
      well_formed s h "is_complete_request" (JObj m) (parented_answer (e_interp E (RIsComplete code)))
  | wf_kernel_info ct : returns (e_interp E RKernelInfo) (fun j => utf8_json j /\ exists m, j = JObj m) ->
      well_formed s h "kernel_info_request" ct
        (fun j => exists m, parented_answer (e_interp E RKernelInfo) (JObj m) /\ j = JObj (mset "protocol_version" (JStr "5.3") m))
  | wf_shutdown m restart : bool_field m "restart" false restart ->
      returns (e_interp E RShutdown) (fun _ => True) ->
      well_formed s h "shutdown_request" (JObj m) (eq (JObj [("restart", JBool restart)]))
  | wf_interrupt ct : well_formed s h "interrupt_request" ct (eq (JObj []))
  | wf_debug ct d : e_debugger E = Some d -> returns2 (d h ct) utf8_json ->
      well_formed s h "debug_request" ct (answer2 (d h ct))
  | wf_history ct j : process_request (e_regex E) ct (k_history s) = Ok j -> utf8_json j ->
      well_formed s h "history_request" ct (eq j)
  | wf_comm_info ct name :
      (ct = JNull /\ name = "") \/ (exists m, ct = JObj m /\ str_field m "target_name" "" name) ->
      listable (k_comms s) ->
      (forall id a t, mfind id (registry (k_comms s)) = Some a -> points_to (k_comms s) a t -> utf8_text id /\ utf8_text (t_name t)) ->
      well_formed s h "comm_info_request" ct
        (fun j => exists infos, listing (k_comms s) name infos /\ j = JObj [("comms", infos); ("status", JStr "ok")]).

  Context (Hq : quiet E) (Hu : env_utf8 E) (HU : user_publishes E raw).

  Lemma send_ok rty md ct c s : utf8_text rty -> utf8_json (k_phdr s c) -> utf8_json md -> utf8_json ct ->
    exists s', run (send_reply E rty md ct c) s = (s', Ok tt) /\ replied E c rty md ct s s'.
  Proof.
    intros Hr Hp Hm Hc. destruct (serialize_valid (e_crypto E) (e_auth E) (e_eh E) (reply_msg E s (k_pid s c) rty (k_phdr s c) md ct)) as [f Hf].
    { unfold base_parts. cbn [reply_msg m_base m_header m_parent_header m_metadata m_content]. destruct Hu as (U1 & U2 & U3 & U4).
      repeat apply Forall_cons; auto. unfold hdr. now apply utf8_header. }
    rewrite run_reply, run_reply_to. cbv zeta. rewrite Hq, Hf. eexists. split; [reflexivity|]. exists f. auto.
  Qed.
  Lemma publish_ok ty md ct bufs c s : utf8_text ty -> utf8_json (k_phdr s c) -> utf8_json md -> utf8_json ct ->
    exists f, pub_serialize (e_crypto E) (e_auth E) (e_eh E) (pub_msg E s ty md ct bufs c) = Ok f /\
      run (publish_message E ty md ct bufs c) s = (add_event (EPublish c (pub_msg E s ty md ct bufs c) f) (tick s), Ok tt).
  Proof.
    intros Hr Hp Hm Hc. destruct (pub_serialize_valid (e_crypto E) (e_auth E) (e_eh E) (pub_msg E s ty md ct bufs c)) as [f Hf].
    { unfold base_parts. cbn [pub_msg m_pbase m_header m_parent_header m_metadata m_content]. destruct Hu as (U1 & U2 & U3 & U4).
      repeat apply Forall_cons; auto. unfold hdr. now apply utf8_header. }
    exists f. split; auto. rewrite run_publish. cbv zeta. now rewrite Hq, Hf.
  Qed.

  (** A handler that replies with a content satisfying [P]. *)
  Definition replies (h : kprog U unit) (c : channel) (rty : string) (P : json -> Prop) s : Prop :=
    exists s1 s' md ct, run h s = (s', Ok tt) /\ pframe E raw s s1 /\ replied E c rty md ct s1 s' /\ P ct.
  Lemma replies_pre {A} (p : kprog U A) f c rty P s s1 a :
    run p s = (s1, Ok a) -> pframe E raw s s1 -> replies (f a) c rty P s1 -> replies (tbind p f) c rty P s.
  Proof.
    intros Hp Hf (s2 & s' & md & ct & Hr & Hf2 & Hrep & HP). exists s2, s', md, ct. rewrite run_bind, Hp. split; auto. split; auto.
    eapply pframe_trans; eauto.
  Qed.
  Lemma replies_res {A} (r : res A) f c rty P s a : r = Ok a -> replies (f a) c rty P s -> replies (tbind (of_res r) f) c rty P s.
  Proof. intros -> H. eapply replies_pre; [apply run_res | apply pframe_refl | exact H]. Qed.
  Lemma replies_send rty md ct c (P : json -> Prop) s : utf8_text rty -> utf8_json (k_phdr s c) -> utf8_json md -> utf8_json ct -> P ct ->
    replies (send_reply E rty md ct c) c rty P s.
  Proof.
    intros H1 H2 H3 H4 HP. destruct (send_ok rty md ct c s H1 H2 H3 H4) as (s' & Hr & Hrep).
    exists s, s', md, ct. split; auto. split; [apply pframe_refl | auto].
  Qed.
  Lemma replies_interp rq (Q : json -> Prop) f c rty P s : returns (e_interp E rq) Q -> parents_utf8 s ->
    (forall s1 j, Q j -> parented_answer (e_interp E rq) j -> pframe E raw s s1 -> replies (f j) c rty P s1) -> replies (tbind (interp E rq) f) c rty P s.
  Proof.
    intros Hret Hps Hf. destruct (Hret (add_event (EInterp rq) s) Hps) as (s1 & j & Hrun & HQ).
    assert (Hi : run (interp E rq) s = (s1, Ok j)) by (unfold interp; rewrite run_bind, run_emit; exact Hrun).
    assert (Hp : pframe E raw s s1).
    { pose proof (pinterp E raw HU rq s) as X. now rewrite Hi in X. }
    eapply replies_pre; [exact Hi | exact Hp |]. apply Hf; auto. exists (add_event (EInterp rq) s), s1. auto.
  Qed.
  Lemma pframe_parents s s1 : pframe E raw s s1 -> parents_utf8 s -> parents_utf8 s1.
  Proof. intros [[_ H _ _ _] _] Hp c. rewrite H. apply Hp. Qed.
  Lemma in_mset k v m (x : string * json) : In x (mset k v m) -> x = (k, v) \/ In x m.
  Proof.
    induction m as [|[k' v'] m IH]; cbn [mset].
    - intros [<-|[]]; auto.
    - destruct (String.compare k k').
      + intros [<-|H]; auto. right. now right.
      + intros [<-|H]; auto.
      + intros [<-|H]; [right; now left|]. apply IH in H as [->|H]; auto. right. now right.
  Qed.
  Lemma utf8_mset k v m : utf8_text k -> utf8_json v -> utf8_json (JObj m) -> utf8_json (JObj (mset k v m)).
  Proof.
    intros Hk Hv Hm s Hs. inversion Hs as [| |m' x Hx|m' k' x Hx Hsx]; subst.
    - apply in_mset in Hx as [Hx|Hx]; [injection Hx as -> _; exact Hk|]. apply Hm. econstructor; eauto.
    - apply in_mset in Hx as [Hx|Hx]; [injection Hx as _ ->; now apply Hv|]. apply Hm. eapply si_member; eauto.
  Qed.
  Ltac lit := apply utf8_lit; reflexivity.
  Lemma utf8_int z : utf8_json (JInt z).
  Proof. intros s H. inversion H. Qed.
  Lemma utf8_bool b : utf8_json (JBool b).
  Proof. intros s H. inversion H. Qed.

  (** All handlers except execute_request. *)
  Lemma handler_replies ty m c s P : well_formed s (m_header (m_base m)) ty (m_content (m_base m)) P -> ty <> "execute_request" -> parents_utf8 s ->
    exists h rty, mfind ty (handlers E) = Some h /\ reply_name ty rty /\ replies (h m c) c rty P s.
  Proof.
    intros Hwf Hne Hp. remember (m_content (m_base m)) as ct0 eqn:Hct. remember (m_header (m_base m)) as hd eqn:Hhd.
    destruct Hwf as [ct p|mm code pos F1 F2 R|mm code pos lvl F1 F2 F3 R|mm code F1 R|ct R|mm restart F1 R|ct|ct d Hd R|ct j Hpr Huj|ct name Hn Hls Hux].
    - now destruct Hne.
    - exists (complete_request E), "complete_reply". split; [reflexivity|]. split; [now exists "complete"|].
      unfold complete_request. cbv zeta. rewrite <- Hct. eapply replies_res; [apply str_field_value, F1|]. eapply replies_res; [apply num_field_value, F2|].
      eapply replies_interp; [exact R|exact Hp|]. intros s1 j Hj Ha Hf. apply replies_send; auto using utf8_empty; [lit|]. eapply pframe_parents; eauto.
    - exists (inspect_request E), "inspect_reply". split; [reflexivity|]. split; [now exists "inspect"|].
      unfold inspect_request. cbv zeta. rewrite <- Hct. eapply replies_res; [apply str_field_value, F1|]. eapply replies_res; [apply num_field_value, F2|].
      eapply replies_res; [apply num_field_value, F3|].
      eapply replies_interp; [exact R|exact Hp|]. intros s1 j Hj Ha Hf. apply replies_send; auto using utf8_empty; [lit|]. eapply pframe_parents; eauto.
    - exists (is_complete_request E), "is_complete_reply". split; [reflexivity|]. split; [now exists "is_complete"|].
      unfold is_complete_request. rewrite <- Hct. eapply replies_res; [apply str_field_value, F1|].
      eapply replies_interp; [exact R|exact Hp|]. intros s1 j Hj Ha Hf. apply replies_send; auto using utf8_empty; [lit|]. eapply pframe_parents; eauto.
    - exists (kernel_info_request E), "kernel_info_reply". split; [reflexivity|]. split; [now exists "kernel_info"|].
      unfold kernel_info_request. eapply replies_interp; [exact R|exact Hp|]. intros s1 j [Hj [mm ->]] Ha Hf.
      eapply replies_res; [reflexivity|]. apply replies_send; auto using utf8_empty; [lit|eapply pframe_parents; eauto| |eauto].
      apply utf8_mset; auto; [lit | apply utf8_str; lit].
    - exists (shutdown_request E), "shutdown_reply". split; [reflexivity|]. split; [now exists "shutdown"|].
      unfold shutdown_request. rewrite <- Hct. eapply replies_res; [apply bool_field_value, F1|].
      eapply replies_interp; [exact R|exact Hp|]. intros s1 j _ Ha Hf. pose proof (pframe_parents _ _ Hf Hp) as Hp1.
      assert (Hrj : utf8_json (jobj [("restart", JBool restart)])) by (apply utf8_obj; repeat constructor; cbn [fst snd]; auto using utf8_bool; lit).
      eapply replies_pre; [apply run_emit | pose proof (pmark E raw EStop I s1) as X; rewrite run_emit in X; exact X |]. cbv zeta.
      destruct (publish_ok "shutdown" empty (jobj [("restart", JBool restart)]) [] CONTROL (add_event EStop s1)) as (f & Hf2 & Hrun); auto using utf8_empty; [lit|apply Hp1|].
      eapply replies_pre; [exact Hrun| |].
      { pose proof (ppublish E raw "shutdown" empty (jobj [("restart", JBool restart)]) [] CONTROL ltac:(left; apply in_kernel_types; reflexivity) ltac:(right; cbn; auto) (add_event EStop s1)) as X.
        rewrite Hrun in X. exact X. }
      apply replies_send; auto using utf8_empty; [lit|]. apply Hp1.
    - exists (interrupt_request E), "interrupt_reply". split; [reflexivity|]. split; [now exists "interrupt"|].
      unfold interrupt_request.
      destruct (publish_ok "interrupt" empty empty [] CONTROL s) as (f & Hf2 & Hrun); auto using utf8_empty; [lit|].
      eapply replies_pre; [exact Hrun| |].
      { pose proof (ppublish E raw "interrupt" empty empty [] CONTROL ltac:(left; apply in_kernel_types; reflexivity) ltac:(right; cbn; auto) s) as X.
        rewrite Hrun in X. exact X. }
      apply replies_send; auto using utf8_empty; [lit|]. apply Hp.
    - exists (debug_request E), "debug_reply". split; [reflexivity|]. split; [now exists "debug"|].
      unfold debug_request. rewrite Hd. cbv zeta. rewrite <- Hct, <- Hhd.
      eapply replies_pre; [apply run_emit | pose proof (pmark E raw (EDebug hd ct) I s) as X; rewrite run_emit in X; exact X |].
      destruct (R (add_event (EDebug hd ct) s) Hp) as (s1 & j & Hrun & Hj).
      assert (Hf : pframe E raw (add_event (EDebug hd ct) s) s1).
      { pose proof (ua_debugger _ _ _ HU) as X. rewrite Hd in X. pose proof (pdebugger E raw HU (d hd ct) (X hd ct) (add_event (EDebug hd ct) s)) as Y. now rewrite Hrun in Y. }
      eapply replies_pre; [exact Hrun | exact Hf |].
      eapply replies_pre with (s1 := set_clock (S (k_clock s1)) s1) (a := exec_metadata E s1); [reflexivity| |].
      { apply pframe_silent; auto. }
      assert (Hm : utf8_json (exec_metadata E s1)).
      { unfold exec_metadata. apply utf8_obj. destruct Hu as (_ & _ & _ & U4). repeat constructor; cbn [fst snd]; auto using utf8_str; lit. }
      apply replies_send; auto; [lit| |exists (add_event (EDebug hd ct) s), s1; auto]. change (k_phdr (set_clock (S (k_clock s1)) s1) c) with (k_phdr s1 c).
      destruct Hf as [[_ Hph _ _ _] _]. rewrite Hph. apply Hp.
    - exists (history_request E), "history_reply". split; [reflexivity|]. split; [now exists "history"|].
      unfold history_request. eapply replies_pre with (s1 := s) (a := k_history s); [reflexivity | apply pframe_refl |].
      rewrite <- Hct. eapply replies_res; [exact Hpr|]. apply replies_send; auto using utf8_empty. lit.
    - destruct (comm_infos_listing name _ Hls) as (infos & Hi & Hlist).
      assert (Hui : utf8_json infos).
      { destruct Hlist as (mm & -> & Hsm & Hlist). apply utf8_obj. apply Forall_forall. intros [id v] Hin. cbn [fst snd].
        apply in_mfind in Hin; auto. apply Hlist in Hin as (a & t & Ha & Ht & _ & ->). destruct (Hux _ _ _ Ha Ht). split; auto.
        apply utf8_obj. repeat constructor; cbn [fst snd]; auto using utf8_str. lit. }
      exists (comm_info_request E), "comm_info_reply". split; [reflexivity|]. split; [now exists "comm_info"|].
      unfold comm_info_request. cbv zeta. rewrite <- Hct. eapply replies_res with (a := name).
      { destruct Hn as [[-> ->]|(mm & -> & F1)]; [reflexivity|]. cbn [is_null]. now apply str_field_value. }
      eapply replies_pre with (s1 := s) (a := infos).
      { unfold look_comms. rewrite run_bind, run_kdo. cbn [kstep fst snd]. rewrite run_res. unfold empty. now rewrite Hi. }
      { apply pframe_refl. }
      apply replies_send; auto using utf8_empty; [lit| |now exists infos]. apply utf8_obj. repeat constructor; cbn [fst snd]; auto; try lit. apply utf8_str; lit.
  Qed.

  (** A handled request was answered with a content satisfying [P]. *)
  Definition answered_once ty c s s' (P : json -> Prop) : Prop :=
    exists mid r f ab ws, k_trace s' = (k_trace s ++ mid ++ ESend c r f :: ab)%list /\
      Forall (fun e => ~ is_send e) mid /\ routed E c (k_pid s c) (k_phdr s c) ty (ESend c r f) /\ P (m_content (m_base r)) /\
      (exists lo hi, aborts E lo ws ab hi) /\ (ws <> [] -> ty = "execute_request") /\ k_phdr s' = k_phdr s.
  Lemma pre_no_send s s1 : qframe E raw s s1 -> exists mid, k_trace s1 = (k_trace s ++ mid)%list /\ Forall (fun e => ~ is_send e) mid.
  Proof.
    intros [_ _ _ _ (evs & T & _ & F)]. exists evs. split; auto. eapply Forall_impl; [|exact F]. intros e. apply pre_not_send.
  Qed.
  Lemma answered_after ty rty c s s1 s4 s' md ct (P : json -> Prop) ab ws : reply_name ty rty -> qframe E raw s s1 -> replied E c rty md ct s1 s4 -> P ct ->
    k_trace s' = (k_trace s4 ++ ab)%list -> (exists lo hi, aborts E lo ws ab hi) -> (ws <> [] -> ty = "execute_request") -> k_phdr s' = k_phdr s4 ->
    answered_once ty c s s' P.
  Proof.
    intros Hn Hqf Hr HP HT Hab Hws Hph. destruct (pre_no_send _ _ Hqf) as (mid & T & F). pose proof Hqf as [A1 A2 _ _ _].
    destruct Hr as (f & Hf & ->). exists mid, (reply_msg E s1 (k_pid s1 c) rty (k_phdr s1 c) md ct), f, ab, ws. split.
    { rewrite HT. cbn [add_event set_trace k_trace tick set_clock set_guid]. rewrite T. now rewrite <- !app_assoc. }
    split; auto. split. { eexists _, f, _, rty. split; [reflexivity|]. split; auto. split; [cbn; now rewrite A1|]. split; [cbn; now rewrite A2|]. split; [apply header_with_make | reflexivity]. }
    split; auto. split; auto. split; auto. rewrite Hph. exact A2.
  Qed.

  (** An execution whose interpreter returns. *)
  Lemma exec_end_returns p c s s' r : x_silent p = true \/ k_count s <> int_max -> parents_utf8 s -> utf8_text (x_code p) ->
    returns (e_interp E (exec_request p s)) (fun j => utf8_json j /\ exists m st, j = JObj m /\ mfind "status" m = Some (JStr st)) ->
    exec_end E p c s s' r ->
    exists s2 s3 s4 m st, exec_started E p s s2 /\ exec_call E p s s2 = (s3, Ok (JObj m)) /\ mfind "status" m = Some (JStr st) /\
      replied E c "execute_reply" (exec_metadata E s) (JObj (mset "execution_count" (JInt (exec_count p s)) m)) s3 s4 /\
      if negb (x_silent p) && String.eqb st "error" && x_stop p then run (abort_queue E) (exec_stored p s4) = (s', r)
      else s' = exec_stored p s4 /\ r = Ok tt.
  Proof.
    intros Hmax Hp Hcode Hret Hend.
    assert (Hcall : forall s2 s3 x, exec_started E p s s2 -> exec_call E p s s2 = (s3, x) ->
       exists m st, x = Ok (JObj m) /\ utf8_json (JObj m) /\ mfind "status" m = Some (JStr st)).
    { intros s2 s3 x Hs Hc. destruct (Hret (add_event (EInterp (exec_request p s)) s2)) as (s5 & j & Hrun & Hj & m & st & -> & Hst).
      { destruct (exec_started_frame E raw _ _ _ Hs) as (_ & Hph & _). intros c'. cbn. rewrite Hph. apply Hp. }
      unfold exec_call in Hc. rewrite Hrun in Hc. injection Hc as <- <-. eauto. }
    assert (Hst : forall n m j' st st', jset "execution_count" (JInt n) (JObj m) = Ok j' -> mfind "status" m = Some (JStr st) ->
       str_field (match j' with JObj m => m | _ => [] end) "status" "error" st' -> j' = JObj (mset "execution_count" (JInt n) m) /\ st' = st).
    { intros n m j' st st' [= <-] Hm [[Hx _]|Hx]; rewrite mfind_mset_other in Hx by discriminate; rewrite Hm in Hx; [discriminate|]. injection Hx as ->. auto. }
    destruct Hend as [s1 r1 Hf Hno Hx|s2 s3 e Hs Hc|s2 s3 w Hs Hc|s2 s3 j w Hs Hc Hno|s2 s3 j j' r1 Hs Hc Hj Hr Hno|s2 s3 s4 j j' st Hs Hc Hj Hsf Hr Hcond|s2 s3 s4 j j' s6 r1 Hs Hc Hj Hsf Hr Hsil Hstop Hab].
    - exfalso. destruct (Hx Hq Hu (Hp SHELL) Hcode) as [Hm _]. destruct Hmax as [Hs|Hn]; [|auto]. destruct Hf; congruence.
    - destruct (Hcall _ _ _ Hs Hc) as (m & st & X & _). discriminate.
    - destruct (Hcall _ _ _ Hs Hc) as (m & st & X & _). discriminate.
    - destruct (Hcall _ _ _ Hs Hc) as (m & st & [= ->] & _ & Hm). now destruct (Hno st).
    - exfalso. destruct (Hcall _ _ _ Hs Hc) as (m & st & [= ->] & Hum & Hm). injection Hj as <-.
      destruct (exec_pre E raw HU _ _ _ _ _ Hs Hc) as [[A1 A2 _ _ _] _].
      destruct (send_ok "execute_reply" (exec_metadata E s) (JObj (mset "execution_count" (JInt (exec_count p s)) m)) c s3) as (s4 & Hok & _).
      + lit.
      + rewrite A2. apply Hp.
      + unfold exec_metadata. apply utf8_obj. destruct Hu as (_ & _ & _ & U4). repeat constructor; cbn [fst snd]; auto using utf8_str; lit.
      + apply utf8_mset; auto using utf8_int. lit.
      + rewrite Hok in Hr. injection Hr as _ <-. discriminate.
    - destruct (Hcall _ _ _ Hs Hc) as (m & st' & [= ->] & Hum & Hm). destruct (Hst _ _ _ _ _ Hj Hm Hsf) as [-> ->].
      exists s2, s3, s4, m, st'. split; auto. split; auto. split; auto. split; auto.
      destruct (negb (x_silent p) && String.eqb st' "error" && x_stop p) eqn:Hb; auto. exfalso.
      apply andb_true_iff in Hb as [Hb B3]. apply andb_true_iff in Hb as [B1 B2]. apply String.eqb_eq in B2. apply negb_true_iff in B1.
      destruct Hcond as [H|[H|H]]; congruence.
    - destruct (Hcall _ _ _ Hs Hc) as (m & st' & [= ->] & Hum & Hm). destruct (Hst _ _ _ _ _ Hj Hm Hsf) as [-> <-].
      exists s2, s3, s4, m, "error". split; auto. split; auto. split; auto. split; auto. rewrite Hsil, Hstop. exact Hab.
  Qed.
  Lemma execute_answered m c s P : well_formed s (m_header (m_base m)) "execute_request" (m_content (m_base m)) P -> parents_utf8 s ->
    utf8_json (m_content (m_base m)) ->
    exists s' r, run (handle E "execute_request" m c) s = (s', r) /\ (r = Ok tt \/ is_ub r = true /\ exists w, In (Some w) (k_shell s) /\ fatal E w) /\
      answered_once "execute_request" c s s' P.
  Proof.
    intros Hwf Hp Hut. remember "execute_request" as ty eqn:Hty in Hwf. remember (m_content (m_base m)) as ct eqn:Hct in Hwf.
    destruct Hwf as [ct p Hpar Hmax n call Hret| | | | | | | | |]; try discriminate. subst ct.
    destruct (run_handle E "execute_request" m c s Hut) as [[X _]|(hh & Hf & Hst & Hns & Hok)]; [discriminate|].
    injection Hf as <-. rewrite (execute_params E m c p s Hpar) in Hst, Hok. rewrite run_catch in Hst, Hok.
    pose proof (run_exec_body E raw HU p c s) as Hend. cbv zeta in Hend.
    destruct (run (exec_body E p c) s) as [s' r] eqn:Hb. cbn [fst snd] in Hend.
    destruct (exec_end_returns p c s s' r Hmax Hp (params_code_utf8 _ _ Hut Hpar) Hret Hend) as (s2 & s3 & s4 & mm & st & Hs & Hc & Hm & Hr & Hfin).
    destruct (exec_pre E raw HU _ _ _ _ _ Hs Hc) as [Hqf _]. destruct (exec_stored_frame p s4) as (C1 & C2 & C3 & C4 & C5 & C6).
    assert (HPc : exists m0, parented_answer call (JObj m0) /\ JObj (mset "execution_count" (JInt (exec_count p s)) mm) = JObj (mset "execution_count" (JInt n) m0)).
    { exists mm. split; [|reflexivity]. eexists _, s3. split; [|exact Hc].
      destruct (exec_started_frame E raw _ _ _ Hs) as (_ & Hph & _). intros c'. cbn. rewrite Hph. apply Hp. }
    assert (Hrr : r = Ok tt \/ (exists w, r = Exn (Std w)) \/ (is_ub r = true /\ exists w, In (Some w) (k_shell s) /\ fatal E w)).
    { destruct (negb (x_silent p) && String.eqb st "error" && x_stop p); [|destruct Hfin; auto].
      destruct (run_abort_queue E (exec_stored p s4)) as (ws & evs & s7 & x & Hrun & _ & He). rewrite Hfin in Hrun. injection Hrun as <- <-.
      destruct He as [[-> _]|(_ & w & Hw & Hx & _)]; auto. right. destruct (Hx Hq) as [[e ->]|[Hub Hfatal]]; [eauto|].
      right. split; auto. exists w. split; auto. destruct Hr as (f & _ & ->). destruct Hqf as [_ _ Hsh _ _]. rewrite <- Hsh.
      change (k_shell s3) with (k_shell (add_event (ESend c (reply_msg E s3 (k_pid s3 c) "execute_reply" (k_phdr s3 c) (exec_metadata E s) (JObj (mset "execution_count" (JInt (exec_count p s)) mm))) f) (tick s3))).
      rewrite <- C3, Hw. apply in_or_app. right. now left. }
    exists s', (snd (run (handle E "execute_request" m c) s)). split.
    { rewrite (surjective_pairing (run (handle E "execute_request" m c) s)) at 1. f_equal. rewrite Hst. destruct r as [[]|[]|]; reflexivity. }
    split.
    { destruct Hrr as [->|[[w ->]|[Hub Hw]]]; [left; apply Hok; cbn; auto | left; apply Hok; cbn; eauto |]. right. split; auto.
      unfold handle. change (mfind "execute_request" (handlers E)) with (Some (execute_request E)). cbn beta iota. rewrite run_catch, (execute_params E m c p s Hpar), run_catch, Hb.
      destruct r; try discriminate. reflexivity. }
    destruct (negb (x_silent p) && String.eqb st "error" && x_stop p).
    - destruct (run_abort_queue E (exec_stored p s4)) as (ws & evs & s7 & x & Hrun & [F1 F2 F3 F4 _ _ _ _ _ F10 F11] & He).
      rewrite Hfin in Hrun. injection Hrun as <- <-.
      eapply answered_after with (rty := "execute_reply") (ab := evs); eauto; [now exists "execute"| |congruence]. now rewrite F10, C5.
    - destruct Hfin as [-> ->]. eapply answered_after with (rty := "execute_reply") (ab := []) (ws := []); eauto; [now exists "execute"|now rewrite C5, app_nil_r|].
      exists 0, 0. constructor; lia.
  Qed.

  (** Every well-formed request gets exactly one reply. *)
  Lemma dispatch_replies w c m ty s P :
    accepted E w m -> typed (m_header (m_base m)) ty -> parents_utf8 s ->
    well_formed s (m_header (m_base m)) ty (m_content (m_base m)) P ->
    let h := m_header (m_base m) in
    exists s' x busy mid r f ab ws tail, run (dispatch E w c) s = (s', x) /\
      k_trace s' = (k_trace s ++ busy :: mid ++ ESend c r f :: ab ++ tail)%list /\
      status_event E "busy" c h busy /\ ended E c h x tail /\ Forall (fun e => ~ is_send e) mid /\
      routed E c (m_ids m) h ty (ESend c r f) /\ P (m_content (m_base r)) /\
      (exists lo hi, aborts E lo ws ab hi) /\ (ws <> [] -> ty = "execute_request") /\
      (x = Ok tt \/ is_ub x = true /\ exists w, In (Some w) (k_shell s) /\ fatal E w).
  Proof.
    intros Ha Hty Hp Hwf h. destruct (run_dispatch_accepted E w c m ty s Hq Hu Ha Hty) as (fb & Hfb & HD).
    set (sp := parented (m_ids m) (m_header (m_base m)) c s) in *. set (s0 := with_status E "busy" c fb sp) in *.
    pose proof (accepted_content_utf8 _ _ _ Ha) as Hut.
    assert (Hp0 : parents_utf8 s0).
    { intros c'. unfold s0, sp. cbn [with_status add_event set_trace tick set_clock set_guid parented set_phdr k_phdr]. rewrite upd_idem.
      destruct (chan_eqb c c'); auto. eapply accepted_header_utf8; eauto. }
    assert (Hwf0 : well_formed s0 (m_header (m_base m)) ty (m_content (m_base m)) P).
    { destruct Hwf as [ct p H1 H2 n call H3|mm code pos F1 F2 R|mm code pos lvl F1 F2 F3 R|mm code F1 R|ct R|mm restart F1 R|ct|ct d Hd R|ct j Hpr Huj|ct name Hn Hls Hux].
      - exact (wf_execute s0 _ ct p H1 H2 H3).
      - exact (wf_complete s0 _ mm code pos F1 F2 R).
      - exact (wf_inspect s0 _ mm code pos lvl F1 F2 F3 R).
      - exact (wf_is_complete s0 _ mm code F1 R).
      - exact (wf_kernel_info s0 _ ct R).
      - exact (wf_shutdown s0 _ mm restart F1 R).
      - exact (wf_interrupt s0 _ ct).
      - exact (wf_debug s0 _ ct d Hd R).
      - exact (wf_history s0 _ ct j Hpr Huj).
      - exact (wf_comm_info s0 _ ct name Hn Hls Hux). }
    assert (Hh : exists s1 r1, run (handle E ty m c) s0 = (s1, r1) /\ (r1 = Ok tt \/ is_ub r1 = true /\ exists w, In (Some w) (k_shell s) /\ fatal E w) /\ answered_once ty c s0 s1 P).
    { destruct (String.eqb_spec ty "execute_request") as [->|Hne]; [exact (execute_answered m c s0 P Hwf0 Hp0 Hut)|].
      destruct (handler_replies ty m c s0 P Hwf0 Hne Hp0) as (hh & rty & Hf & Hn & s1 & s1' & md & ct & Hr & [Hqf _] & Hrep & HP).
      exists s1', (Ok tt). unfold handle. rewrite Hf, run_catch, Hr. split; auto. split; auto.
      eapply answered_after with (ab := []) (ws := []); eauto; [now rewrite app_nil_r | exists 0, 0; constructor; lia | congruence]. }
    destruct Hh as (s1 & r1 & Hr1 & Hx & mid & r & f & ab & ws & T & F & R & HP & AB & W & Hph). rewrite Hr1 in HD.
    assert (Hpc : k_pid s0 c = m_ids m) by (unfold s0, sp; cbn; apply upd_same).
    assert (Hhc : k_phdr s0 c = h) by (unfold s0, sp; cbn; apply upd_same).
    assert (Hspc : k_phdr sp c = h) by (unfold sp; cbn; apply upd_same).
    assert (Hb : status_event E "busy" c h (EPublish c (status_msg E "busy" c sp) fb)) by (rewrite <- Hspc; apply status_event_ok).
    rewrite Hpc, Hhc in R. change (k_trace s0) with (k_trace s ++ [EPublish c (status_msg E "busy" c sp) fb])%list in T.
    destruct Hx as [->|[Hub Hw]].
    - destruct (status_serializes E "idle" c s1 Hu) as [fi Hfi]; [rewrite Hph; apply Hp0 | lit |].
      rewrite (run_status E "idle" c s1 fi Hq Hfi) in HD.
      exists (with_status E "idle" c fi s1), (Ok tt), (EPublish c (status_msg E "busy" c sp) fb), mid, r, f, ab, ws, [EPublish c (status_msg E "idle" c s1) fi].
      split; auto. split.
      { cbn [with_status add_event set_trace tick k_trace set_clock set_guid]. rewrite T. rewrite <- !app_assoc. cbn [app]. now rewrite <- ?app_assoc. }
      split; auto. split. { left. split; auto. eexists. split; [reflexivity|]. split; [|exact Hfi]. rewrite <- Hhc, <- Hph. apply status_event_ok. }
      auto 10.
    - destruct r1 as [| |u]; try discriminate.
      exists s1, (UB u), (EPublish c (status_msg E "busy" c sp) fb), mid, r, f, ab, ws, [].
      split; auto. split; [rewrite T, app_nil_r; now rewrite <- !app_assoc|]. split; auto. split; [right; auto|]. auto 10.
  Qed.
End Replies.
