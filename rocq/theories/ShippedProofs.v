(** Proofs for the kernels that come with xeus. *)
From Verif Require Import Base BaseFacts Json JsonText Utf8 Utf8Proofs JsonTextProofs Auth Message MessageProofs WireSpec History HistoryProofs Comm Tree Kernel KernelSpec KernelProofs KernelRun KernelHandlers
  KernelExec KernelDispatch KernelLemmas KernelExecProps KernelReplies KernelSession Server ServerSpec ServerProofs SequentialSpec Sequential SequentialProofs AnsweredSpec Answered LiveSpec Live Shipped ShippedSpec.

(** ** Texts *)
Lemma jarr_utf8 l : Forall utf8_json l -> utf8_json (JArr l).
Proof. intros H s Hs. inversion Hs as [|l' x Hx Hsx| |]; subst. rewrite Forall_forall in H. exact (H _ Hx _ Hsx). Qed.
Definition row_utf8 (r : list string) : Prop := Forall utf8_text r.
Lemma rows_utf8 l : Forall row_utf8 l -> utf8_json (reply_ok l).
Proof.
  intros H. unfold reply_ok, jobj. cbn [fold_left fst snd]. apply utf8_mset; [apply utf8_lit; reflexivity|apply utf8_str, utf8_lit; reflexivity|].
  apply utf8_mset; [apply utf8_lit; reflexivity| |apply utf8_empty]. unfold json_rows. apply jarr_utf8, Forall_map. revert H. apply Forall_impl.
  intros r Hr. apply jarr_utf8, Forall_map. revert Hr. apply Forall_impl. intros s. apply utf8_str.
Qed.
Lemma row_ok out e : entry_utf8 e -> row_utf8 (row out e).
Proof. intros (A & B & C & D). destruct out; repeat constructor; auto. Qed.
Lemma Forall_firstn {A} (P : A -> Prop) n l : Forall P l -> Forall P (firstn n l).
Proof. intros H. rewrite <- (firstn_skipn n l) in H. now apply Forall_app in H. Qed.
Lemma Forall_skipn {A} (P : A -> Prop) n l : Forall P l -> Forall P (skipn n l).
Proof. intros H. rewrite <- (firstn_skipn n l) in H. now apply Forall_app in H. Qed.
Lemma Forall_unique P l : Forall P l -> Forall P (unique l).
Proof.
  assert (X : forall l x, Forall P l -> Forall P (unique_from x l)).
  { clear l. induction l as [|y l IH]; intros x H; [constructor|]. inversion H; subst. cbn [unique_from]. destruct (slist_eqb x y); auto. }
  destruct l as [|x l]; intros H; [constructor|]. inversion H; subst. cbn [unique]. auto.
Qed.
Lemma clean_utf8 P n u l l' : Forall P l -> clean_history n u l = Ok l' -> Forall P l'.
Proof.
  intros H. unfold clean_history. set (q := if u then unique l else l). assert (Hq : Forall P q) by (unfold q; destruct u; auto using Forall_unique).
  clearbody q. destruct (_ >? 0)%Z; [|intros [= <-]; exact Hq]. destruct (_ >? _)%Z; [discriminate|]. intros [= <-]. now apply Forall_skipn.
Qed.
Lemma history_utf8 rx ct h j : Forall entry_utf8 h -> process_request rx ct h = Ok j -> utf8_json j.
Proof.
  intros H. unfold process_request.
  destruct (value_string "hist_access_type" "tail" ct) as [t| |]; cbn [bind]; try discriminate.
  destruct (String.eqb t "tail").
  { destruct (value_int "n" 10%Z ct) as [n| |]; cbn [bind]; try discriminate. destruct (value_bool "raw" true ct) as [rw| |]; cbn [bind]; try discriminate.
    destruct (value_bool "output" false ct) as [out| |]; cbn [bind]; try discriminate. unfold get_tail. destruct (_ <? 0)%Z; [discriminate|]. intros [= <-].
    apply rows_utf8. assert (X : forall l acc, Forall entry_utf8 l -> Forall row_utf8 acc -> Forall row_utf8 (fold_left (fun acc e => row out e :: acc) l acc)).
    { induction l as [|e l IH]; intros acc Hl Ha; [exact Ha|]. inversion Hl; subst. cbn [fold_left]. apply IH; auto. constructor; auto using row_ok. }
    apply X; [|constructor]. apply Forall_firstn. apply Forall_rev. exact H. }
  destruct (String.eqb t "search").
  { destruct (value_string "pattern" "*" ct) as [p| |]; cbn [bind]; try discriminate. destruct (value_bool "raw" true ct) as [rw| |]; cbn [bind]; try discriminate.
    destruct (value_bool "output" false ct) as [out| |]; cbn [bind]; try discriminate. destruct (value_int "n" 10%Z ct) as [n| |]; cbn [bind]; try discriminate.
    destruct (value_bool "unique" false ct) as [u| |]; cbn [bind]; try discriminate. unfold search.
    destruct (compile_regex rx (regex_of_glob p)) as [f| |]; cbn [bind]; try discriminate.
    destruct (clean_history n u _) as [l| |] eqn:Hc; cbn [bind]; try discriminate. intros [= <-]. apply rows_utf8. eapply clean_utf8; [|exact Hc].
    apply Forall_map. apply Forall_forall. intros e He. apply filter_In in He as [He _]. rewrite Forall_forall in H. apply row_ok. auto. }
  destruct (String.eqb t "range"); [|intros [= <-]; intros s Hs; inversion Hs].
  destruct (value_int "session" 0%Z ct) as [se| |]; cbn [bind]; try discriminate. destruct (value_int "start" 1%Z ct) as [st| |]; cbn [bind]; try discriminate.
  destruct (value_int "stop" 10%Z ct) as [sp| |]; cbn [bind]; try discriminate. destruct (value_bool "raw" true ct) as [rw| |]; cbn [bind]; try discriminate.
  destruct (value_bool "output" false ct) as [out| |]; cbn [bind]; try discriminate. unfold get_range.
  destruct (_ || _).
  { intros [= <-]. apply utf8_obj. repeat constructor; cbn [fst snd]; try apply utf8_str; apply utf8_lit; reflexivity. }
  destruct (_ <? 0)%Z; [discriminate|]. intros [= <-]. apply rows_utf8. apply Forall_map. apply Forall_firstn, Forall_skipn. revert H. apply Forall_impl. apply row_ok.
Qed.

(** ** Saying *)
Section Says.
  Context (E : env unit).
  Implicit Types (s : kstate unit).
  (** Only the trace, the identifiers and the clock change, and [gs] is said. *)
  Record says s (gs : list gist) s' : Prop := {
    sy_trace : exists evs, k_trace s' = (k_trace s ++ evs)%list /\ gists evs = gs;
    sy_pid : k_pid s' = k_pid s; sy_phdr : k_phdr s' = k_phdr s; sy_shell : k_shell s' = k_shell s;
    sy_count : k_count s' = k_count s; sy_history : k_history s' = k_history s; sy_comms : k_comms s' = k_comms s
  }.
  Lemma says_refl s : says s [] s.
  Proof. constructor; auto. exists []. now rewrite app_nil_r. Qed.
  Lemma says_trans s a s1 b s2 : says s a s1 -> says s1 b s2 -> says s (a ++ b) s2.
  Proof.
    intros [(e1 & T1 & G1) A1 A2 A3 A4 A5 A6] [(e2 & T2 & G2) B1 B2 B3 B4 B5 B6]. constructor; try congruence.
    exists (e1 ++ e2)%list. split; [rewrite T2, T1; now rewrite app_assoc|]. unfold gists. rewrite flat_map_app. unfold gists in *. now rewrite G1, G2.
  Qed.
  Lemma says_mark e s : gist_of e = [] -> says s [] (add_event e s).
  Proof. intros H. constructor; auto. exists [e]. split; [reflexivity|]. cbn. now rewrite H. Qed.
  Lemma type_in_hdr s ty : type_in (hdr E s ty) = ty.
  Proof. unfold type_in, hdr. destruct (header_with_make (e_guid E (k_guid s)) (e_now E (k_clock s)) ty (e_user_name E) (e_session_id E)) as (d & m & _ & _ & _ & H & _). now rewrite H. Qed.

  Hypothesis Q : forall l, e_logger E l = Ok tt.
  Hypothesis EU : env_utf8 E.

  Lemma hdr_utf8 s ty : utf8_text ty -> utf8_json (hdr E s ty).
  Proof. destruct EU as (A & B & C & D). intros H. unfold hdr. now apply utf8_header. Qed.
  Lemma publish_says ty md ct bufs c s : utf8_text ty -> utf8_json md -> utf8_json ct -> utf8_json (k_phdr s c) ->
    exists s', run (publish_message E ty md ct bufs c) s = (s', Ok tt) /\ says s [Said c ty (k_phdr s c) ct] s'.
  Proof.
    intros Ht Hm Hc Hp. rewrite run_publish. cbv zeta. rewrite Q.
    destruct (pub_serialize_valid (e_crypto E) (e_auth E) (e_eh E) (pub_msg E s ty md ct bufs c)) as [f Hf].
    { unfold base_parts, pub_msg; cbn [m_pbase m_header m_parent_header m_metadata m_content]. repeat apply Forall_cons; auto. now apply hdr_utf8. }
    rewrite Hf. eexists. split; [reflexivity|]. constructor; try reflexivity. eexists. split; [reflexivity|]. unfold gists; cbn [flat_map gist_of app pub_msg m_pbase m_header m_parent_header m_content]. now rewrite type_in_hdr.
  Qed.
  Lemma status_says st c s : utf8_text st -> utf8_json (k_phdr s c) ->
    exists s', run (publish_status E st c) s = (s', Ok tt) /\ says s [Said c "status" (k_phdr s c) (JObj [("execution_state", JStr st)])] s'.
  Proof.
    intros Hs Hp. apply (publish_says "status" empty (jobj [("execution_state", JStr st)])); auto; [apply utf8_lit; reflexivity|apply utf8_empty|].
    apply utf8_obj. repeat constructor; cbn [fst snd]; [apply utf8_lit; reflexivity|now apply utf8_str].
  Qed.
  Lemma reply_says ty md ct c s : utf8_text ty -> utf8_json md -> utf8_json ct -> utf8_json (k_phdr s c) ->
    exists s', run (send_reply E ty md ct c) s = (s', Ok tt) /\ says s [Replied c (k_pid s c) ty (k_phdr s c) ct] s'.
  Proof.
    intros Ht Hm Hc Hp. rewrite run_reply, run_reply_to. cbv zeta. rewrite Q.
    destruct (serialize_valid (e_crypto E) (e_auth E) (e_eh E) (reply_msg E s (k_pid s c) ty (k_phdr s c) md ct)) as [f Hf].
    { unfold base_parts, reply_msg; cbn [m_base m_header m_parent_header m_metadata m_content]. repeat apply Forall_cons; auto. now apply hdr_utf8. }
    rewrite Hf. eexists. split; [reflexivity|]. constructor; try reflexivity. eexists. split; [reflexivity|]. unfold gists; cbn [flat_map gist_of app reply_msg m_base m_ids m_header m_parent_header m_content]. now rewrite type_in_hdr.
  Qed.
  Lemma metadata_says s : exists s' md, run (get_metadata E) s = (s', Ok md) /\ says s [] s' /\ utf8_json md.
  Proof.
    eexists _, _. split; [reflexivity|]. split; [constructor; try reflexivity; exists []; split; [cbn; now rewrite app_nil_r|reflexivity]|].
    apply utf8_obj. repeat constructor; cbn [fst snd]; [apply utf8_lit; reflexivity|apply utf8_str; apply EU].
  Qed.

  (** A call of the interpreter that only returns. *)
  Lemma interp_returns r j s : e_interp E r = Ret j -> run (interp E r) s = (add_event (EInterp r) s, Ok j).
  Proof. intros H. unfold interp. rewrite run_bind, run_emit. now rewrite H. Qed.
  Lemma run_call o k s s1 v : run (api0 E o) s = (s1, Ok v) -> run (embed E (call o k)) s = run (embed E k) s1.
  Proof. intros H. change (embed E (call o k)) with (tbind (attempt (api0 E o)) (fun r => embed E (match r with inl _ => k | inr e => Throw e end))). rewrite run_bind, run_attempt, H. reflexivity. Qed.
  Definition publishes (l : list (string * json)) (ph : json) : list gist := List.map (fun x => Said SHELL (fst x) ph (snd x)) l.
  (** What it is to behave in a manner. *)
  Record mannered (W : manner) : Prop := {
    mn_execute : forall n code si st ue al s, utf8_text code -> utf8_json (k_phdr s SHELL) ->
      exists s' j, run (interp E (RExecute n code si st ue al)) s = (s', Ok j) /\ says s (publishes (w_cell W n code) (k_phdr s SHELL)) s' /\
        jset "execution_count" (JInt n) j = Ok (w_execute W n code);
    mn_status : forall n code, value_string "status" "error" (w_execute W n code) = Ok "ok";
    mn_complete : forall code pos, e_interp E (RComplete code pos) = Ret (w_complete W code pos);
    mn_inspect : forall code pos level, e_interp E (RInspect code pos level) = Ret (w_inspect W code);
    mn_is_complete : forall code, e_interp E (RIsComplete code) = Ret (w_is_complete W code);
    mn_info : exists j, e_interp E RKernelInfo = Ret j /\ jset "protocol_version" (JStr "5.3") j = Ok (w_info W);
    mn_shutdown : exists j, e_interp E RShutdown = Ret j;
    mn_utf8 : forall n code pos, utf8_text code -> Forall utf8_json [w_execute W n code; w_complete W code pos; w_inspect W code; w_is_complete W code; w_info W]
  }.
End Says.

(** ** Both kernels have manners *)
Ltac lit := apply utf8_lit; reflexivity.
Ltac js := repeat first
  [ assumption | apply utf8_empty | apply utf8_str; first [assumption|lit] | apply utf8_int | apply utf8_bool | (intros ? ?HS; inversion HS; fail)
  | apply jarr_utf8; repeat constructor | apply utf8_obj; repeat constructor; cbn [fst snd]; try lit ].

Lemma example_mannered E : example_kernel E -> env_utf8 E -> mannered E example_manner.
Proof.
  intros [_ Hi _ _ _ Hq _] EU. constructor; rewrite ?Hi; try reflexivity.
  - intros n code si st ue al s Hc Hp. unfold interp. rewrite run_bind, run_emit, Hi. cbn [custom_interpreter custom_execute].
    set (s0 := add_event _ s). assert (S0 : says s [] s0) by (apply says_mark; reflexivity).
    destruct (publish_says E Hq EU "execute_result" empty (jobj [("execution_count", JInt n); ("data", fields [("text/plain", JStr "Hello World !!")]); ("metadata", JObj [])]) [] SHELL s0)
      as (s1 & R1 & S1); [lit|js|js|exact Hp|].
    destruct (publish_says E Hq EU "error" empty (jobj [("ename", JStr "TypeError"); ("evalue", JStr "123"); ("traceback", JArr (List.map JStr ["!@#$"; "*(*"]))]) [] SHELL s1)
      as (s2 & R2 & S2); [lit|js|js|rewrite (sy_phdr _ _ _ S1); exact Hp|].
    change (run (api0 E (AExecResult n (fields [("text/plain", JStr "Hello World !!")]) (JObj []))) s0 = (s1, Ok tt)) in R1.
    change (run (api0 E (AExecError "TypeError" "123" ["!@#$"; "*(*"])) s1 = (s2, Ok tt)) in R2.
    exists s2. eexists. unfold custom_execute. rewrite (run_call E _ _ s0 s1 _ R1), (run_call E _ _ s1 s2 _ R2). split; [reflexivity|]. split; [|reflexivity].
    pose proof (says_trans _ _ _ _ _ (says_trans _ _ _ _ _ S0 S1) S2) as S. rewrite (sy_phdr _ _ _ S1), (sy_phdr _ _ _ S0) in S. exact S.
  - intros code pos. cbn [custom_interpreter]. f_equal. unfold custom_complete. cbn [example_manner w_complete]. unfold starts_with_H.
    replace (sprefix "H" code) with (Ascii.eqb (first_char code) "H"); [destruct (Ascii.eqb (first_char code) "H"); reflexivity|].
    destruct code as [|c code]; [reflexivity|]. cbn [first_char sprefix]. rewrite Ascii.eqb_sym. now destruct (Ascii.eqb "H" c).
  - intros code pos level. cbn [custom_interpreter]. f_equal. unfold custom_inspect. cbn [example_manner w_inspect]. now destruct (String.eqb code "print").
  - eexists. split; reflexivity.
  - eexists. reflexivity.
  - intros n code pos Hc. repeat apply Forall_cons; [| | | | |apply Forall_nil]; cbn [example_manner w_execute w_complete w_inspect w_is_complete w_info].
    + js.
    + destruct (starts_with_H code); js.
    + destruct (String.eqb code "print"); js.
    + js.
    + js.
Qed.
Lemma test_mannered E : test_kernel E -> env_utf8 E -> mannered E test_manner.
Proof.
  intros [_ Hi _ _ _ Hq _] EU. constructor; rewrite ?Hi; try reflexivity.
  - intros n code si st ue al s Hc Hp. unfold interp. rewrite run_bind, run_emit, Hi. cbn [test_interpreter].
    set (s0 := add_event _ s). assert (S0 : says s [] s0) by (apply says_mark; reflexivity).
    assert (A : forall name s, utf8_text name -> utf8_json (k_phdr s SHELL) -> exists s', run (api0 E (AStream name code)) s = (s', Ok tt) /\
      says s [Said SHELL "stream" (k_phdr s SHELL) (JObj [("name", JStr name); ("text", JStr code)])] s').
    { intros name t Hn Ht. apply (publish_says E Hq EU "stream" empty (jobj [("name", JStr name); ("text", JStr code)])); [lit|js|js|exact Ht]. }
    assert (B : forall s, utf8_json (k_phdr s SHELL) -> exists s', run (api0 E (AExecResult n (fields [("text/plain", JStr code)]) JNull)) s = (s', Ok tt) /\
      says s [Said SHELL "execute_result" (k_phdr s SHELL) (JObj [("data", JObj [("text/plain", JStr code)]); ("execution_count", JInt n); ("metadata", JNull)])] s').
    { intros t Ht. apply (publish_says E Hq EU "execute_result" empty (jobj [("execution_count", JInt n); ("data", fields [("text/plain", JStr code)]); ("metadata", JNull)])); [lit|js|js|exact Ht]. }
    assert (P0 : utf8_json (k_phdr s0 SHELL)) by exact Hp.
    unfold test_execute. cbv zeta. cbn [test_manner w_cell w_execute].
    destruct (String.eqb_spec code "hello, world") as [->|N1].
    + cbn [String.eqb Ascii.eqb Bool.eqb]. destruct (A "stdout" s0) as (s1 & R1 & S1); [lit|exact P0|].
      destruct (B s1) as (s2 & R2 & S2); [rewrite (sy_phdr _ _ _ S1); exact P0|].
      exists s2. eexists. rewrite (run_call E _ _ s0 s1 _ R1), (run_call E _ _ s1 s2 _ R2). split; [reflexivity|]. split; [|reflexivity].
      pose proof (says_trans _ _ _ _ _ (says_trans _ _ _ _ _ S0 S1) S2) as S. rewrite (sy_phdr _ _ _ S1), (sy_phdr _ _ _ S0) in S. exact S.
    + destruct (String.eqb_spec code "error") as [->|N2].
      * cbn [String.eqb Ascii.eqb Bool.eqb]. destruct (A "stderr" s0) as (s1 & R1 & S1); [lit|exact P0|].
        destruct (B s1) as (s2 & R2 & S2); [rewrite (sy_phdr _ _ _ S1); exact P0|].
        exists s2. eexists. rewrite (run_call E _ _ s0 s1 _ R1), (run_call E _ _ s1 s2 _ R2). split; [reflexivity|]. split; [|reflexivity].
        pose proof (says_trans _ _ _ _ _ (says_trans _ _ _ _ _ S0 S1) S2) as S. rewrite (sy_phdr _ _ _ S1), (sy_phdr _ _ _ S0) in S. exact S.
      * destruct (String.eqb_spec code "?") as [->|N3].
        -- exists s0. eexists. split; [reflexivity|]. split; [exact S0|reflexivity].
        -- destruct (B s0) as (s2 & R2 & S2); [exact P0|]. exists s2. eexists. rewrite (run_call E _ _ s0 s2 _ R2). split; [reflexivity|]. split; [|reflexivity].
           pose proof (says_trans _ _ _ _ _ S0 S2) as S. rewrite (sy_phdr _ _ _ S0) in S. exact S.
  - intros code. cbn [test_interpreter]. f_equal. unfold test_is_complete. cbn [test_manner w_is_complete].
    destruct (String.eqb_spec code "incomplete") as [->|]; reflexivity.
  - eexists. split; reflexivity.
  - eexists. reflexivity.
  - intros n code pos Hc. repeat apply Forall_cons; [| | | | |apply Forall_nil]; cbn [test_manner w_execute w_complete w_inspect w_is_complete w_info].
    + destruct (String.eqb code "?"); js.
    + js.
    + js.
    + destruct (String.eqb code "incomplete"); js.
    + js.
Qed.

(** ** The handlers *)
Section Handlers.
  Context (E : env unit) (W : manner) (T : string -> Prop).
  Implicit Types (s : kstate unit).
  Hypothesis Q : forall l, e_logger E l = Ok tt.
  Hypothesis EU : env_utf8 E.
  Hypothesis ND : e_debugger E = None.
  Hypothesis MN : mannered E W.

  (** No comm; only targets of [T]; texts in UTF-8. *)
  Record ready s : Prop := {
    rd_registry : registry (k_comms s) = [];
    rd_targets : forall name, mfind name (targets (k_comms s)) <> None -> T name;
    rd_parents : forall c, utf8_json (k_phdr s c);
    rd_history : Forall entry_utf8 (k_history s)
  }.
  (** As [says], with a new count and history. *)
  Record told s (gs : list gist) (n : Z) (h : history) s' : Prop := {
    to_trace : exists evs, k_trace s' = (k_trace s ++ evs)%list /\ gists evs = gs;
    to_pid : k_pid s' = k_pid s; to_phdr : k_phdr s' = k_phdr s; to_shell : k_shell s' = k_shell s;
    to_count : k_count s' = n; to_history : k_history s' = h; to_comms : k_comms s' = k_comms s
  }.
  Lemma says_told s gs s' : says s gs s' -> told s gs (k_count s) (k_history s) s'.
  Proof. intros []. now constructor. Qed.
  Lemma told_says s a n h s1 b s2 : told s a n h s1 -> says s1 b s2 -> told s (a ++ b) n h s2.
  Proof.
    intros [(e1 & T1 & G1) A1 A2 A3 A4 A5 A6] [(e2 & T2 & G2) B1 B2 B3 B4 B5 B6]. constructor; try congruence.
    exists (e1 ++ e2)%list. split; [rewrite T2, T1; now rewrite app_assoc|]. unfold gists in *. rewrite flat_map_app. now rewrite G1, G2.
  Qed.
  Lemma says_told_trans s a s1 b n h s2 : says s a s1 -> told s1 b n h s2 -> told s (a ++ b) n h s2.
  Proof.
    intros [(e1 & T1 & G1) A1 A2 A3 A4 A5 A6] [(e2 & T2 & G2) B1 B2 B3 B4 B5 B6]. constructor; try congruence.
    exists (e1 ++ e2)%list. split; [rewrite T2, T1; now rewrite app_assoc|]. unfold gists in *. rewrite flat_map_app. now rewrite G1, G2.
  Qed.
  (** What a handler does when it returns or throws a std::exception. *)
  Definition performs (p : kprog unit unit) s gs n h : Prop :=
    exists s' r, run p s = (s', r) /\ told s gs n h s' /\ (r = Ok tt \/ exists w, r = Exn (Std w)).
  Lemma performs_handle ty hd m c s gs n h : mfind ty (handlers E) = Some hd -> utf8_json (m_content (m_base m)) -> performs (hd m c) s gs n h ->
    exists s', run (handle E ty m c) s = (s', Ok tt) /\ told s gs n h s'.
  Proof.
    intros Hf Hu (s' & r & R & H & Hr). destruct (run_handle E ty m c s Hu) as [[N _]|(hd' & Hf' & X)]; [congruence|].
    rewrite Hf in Hf'. injection Hf' as <-. cbv zeta in X. rewrite R in X. cbn [fst snd] in X. destruct X as (X1 & _ & X2).
    exists s'. split; [|exact H]. destruct (run (handle E ty m c) s) as [s1 r1]. cbn [fst snd] in *. subst s1. f_equal. now apply X2.
  Qed.
  Lemma performs_throw (p : kprog unit unit) s w : run p s = (s, Exn (Std w)) -> performs p s [] (k_count s) (k_history s).
  Proof. intros R. exists s, (Exn (Std w)). split; [exact R|]. split; [apply says_told, says_refl|eauto]. Qed.

  Lemma exec_performs p c s n' : ready s -> utf8_text (x_code p) -> n' = (if x_silent p then k_count s else k_count s + 1)%Z -> (n' <= int_max)%Z ->
    performs (exec_body E p c) s
      ((if x_silent p then [] else [Said SHELL "execute_input" (k_phdr s SHELL) (JObj [("code", JStr (x_code p)); ("execution_count", JInt n')])]) ++
       publishes (w_cell W n' (x_code p)) (k_phdr s SHELL) ++
       [Replied c (k_pid s c) "execute_reply" (k_phdr s c) (w_execute W n' (x_code p))])
      n' (k_history s ++ if stores p then [{| h_session := "0"; h_line := dec_of_Z (x_count p); h_input := x_code p; h_output := "" |}] else []).
  Proof.
    intros RD Hc Hn Hm. unfold exec_body, performs. rewrite run_bind. destruct (metadata_says E EU s) as (s1 & md & R1 & S1 & Hmd). rewrite R1.
    rewrite run_bind. unfold interp_execute. rewrite run_bind.
    (* the count and the input *)
    assert (X : exists s2, run (if x_silent p then Ret tt else n <-- kdo KCount ;; if (n =? int_max)%Z then Stuck "overflow of m_execution_count"
        else kdo (KSetCount (n + 1)) ;;; publish_execution_input E (x_code p) (n + 1)) s1 = (s2, Ok tt) /\
      told s (if x_silent p then [] else [Said SHELL "execute_input" (k_phdr s SHELL) (JObj [("code", JStr (x_code p)); ("execution_count", JInt n')])]) n' (k_history s) s2).
    { destruct (x_silent p).
      - exists s1. split; [reflexivity|]. subst n'. now apply says_told.
      - rewrite run_bind, run_kdo. cbn [kstep fst snd]. rewrite (sy_count _ _ _ S1). destruct (Z.eqb_spec (k_count s) int_max) as [e|_]; [exfalso; clear - e Hn Hm; lia|].
        rewrite run_bind, run_kdo. cbn [kstep fst snd].
        destruct (publish_says E Q EU "execute_input" empty (jobj [("code", JStr (x_code p)); ("execution_count", JInt (k_count s + 1))]) [] SHELL (set_count (k_count s + 1) s1))
          as (s2 & R2 & S2); [lit|js|js|cbn [k_phdr set_count]; rewrite (sy_phdr _ _ _ S1); apply (rd_parents _ RD)|].
        exists s2. split; [exact R2|].
        assert (K : told s [] n' (k_history s) (set_count (k_count s + 1) s1)).
        { destruct S1 as [(e1 & T1 & G1) A1 A2 A3 A4 A5 A6]. constructor; auto. exists e1. auto. }
        pose proof (told_says _ _ _ _ _ _ _ K S2) as K2. cbn [k_phdr set_count] in K2. rewrite (sy_phdr _ _ _ S1) in K2. rewrite Hn. rewrite Hn in K2. exact K2. }
    destruct X as (s2 & R2 & K2). match goal with |- context [run ?q s1] => replace (run q s1) with (s2, @Ok unit tt) by (symmetry; exact R2) end. clear R2. rewrite run_bind, run_kdo. cbn [kstep fst snd]. rewrite (to_count _ _ _ _ _ K2).
    rewrite run_bind. destruct (mn_execute E W MN n' (x_code p) (x_silent p) (stores p) (x_ue p) (x_stdin p) s2) as (s3 & j & R3 & S3 & J3);
      [exact Hc|rewrite (to_phdr _ _ _ _ _ K2); apply (rd_parents _ RD)|].
    rewrite R3. clear R3. rewrite run_bind, run_kdo. cbn [kstep fst snd]. rewrite (sy_count _ _ _ S3), (to_count _ _ _ _ _ K2), run_res, J3. clear J3.
    rewrite run_bind, run_res, (mn_status E W MN). rewrite run_bind.
    pose proof (told_says _ _ _ _ _ _ _ K2 S3) as K3. rewrite (to_phdr _ _ _ _ _ K2) in K3.
    destruct (reply_says E Q EU "execute_reply" md (w_execute W n' (x_code p)) c s3) as (s4 & R4 & S4);
      [lit|exact Hmd|exact (Forall_inv (mn_utf8 E W MN n' (x_code p) 0%Z Hc))|rewrite (to_phdr _ _ _ _ _ K3); apply (rd_parents _ RD)|].
    rewrite R4. clear R4. pose proof (told_says _ _ _ _ _ _ _ K3 S4) as K4. rewrite (to_phdr _ _ _ _ _ K3), (to_pid _ _ _ _ _ K3), <- app_assoc in K4.
    rewrite stores_negb, run_bind. rewrite andb_false_r. cbn [andb]. destruct (stores p).
    - rewrite run_bind, run_kdo. cbn [kstep fst snd]. eexists _, _. split; [reflexivity|]. split; [|now left].
      destruct K4 as [A0 A1 A2 A3 A4 A5 A6]. constructor; auto. cbn [k_history set_history]. rewrite A5. reflexivity.
    - eexists _, _. split; [reflexivity|]. split; [|now left]. rewrite app_nil_r. exact K4.
  Qed.

  Lemma read_reply {A} (r : res A) (f : A -> kprog unit unit) s v : r = Ok v -> run (tbind (of_res r) f) s = run (f v) s.
  Proof. intros ->. now rewrite run_bind, run_res. Qed.
  Lemma interp_reply r j s (f : json -> kprog unit unit) : e_interp E r = Ret j -> run (tbind (interp E r) f) s = run (f j) (add_event (EInterp r) s).
  Proof. intros H. now rewrite run_bind, (interp_returns E r j s H). Qed.
  Lemma then_reply (p : kprog unit unit) e ty ct c s : ready s -> gist_of e = [] -> run p s = run (send_reply E ty empty ct c) (add_event e s) ->
    utf8_text ty -> utf8_json ct -> performs p s [Replied c (k_pid s c) ty (k_phdr s c) ct] (k_count s) (k_history s).
  Proof.
    intros RD He R Ht Hc. pose proof (says_mark e s He) as S0.
    destruct (reply_says E Q EU ty empty ct c (add_event e s)) as (s' & R' & S'); [exact Ht|js|exact Hc|apply (rd_parents _ RD)|].
    exists s', (Ok tt). split; [now rewrite R|]. split; [|now left]. apply says_told. exact (says_trans _ _ _ _ _ S0 S').
  Qed.
  Lemma just_reply (p : kprog unit unit) ty ct c s : ready s -> run p s = run (send_reply E ty empty ct c) s ->
    utf8_text ty -> utf8_json ct -> performs p s [Replied c (k_pid s c) ty (k_phdr s c) ct] (k_count s) (k_history s).
  Proof.
    intros RD R Ht Hc. destruct (reply_says E Q EU ty empty ct c s) as (s' & R' & S'); [exact Ht|js|exact Hc|apply (rd_parents _ RD)|].
    exists s', (Ok tt). split; [now rewrite R|]. split; [|now left]. now apply says_told.
  Qed.
  Lemma field_utf8 m k d v : utf8_json (JObj m) -> utf8_text d -> str_field m k d v -> utf8_text v.
  Proof.
    intros H Hd [[_ ->]|Hf]; [exact Hd|]. apply H. apply si_member with (k := k) (x := JStr v); [now apply mfind_in | constructor].
  Qed.
  Lemma in_manner (n pos : Z) code j : utf8_text code -> In j [w_execute W n code; w_complete W code pos; w_inspect W code; w_is_complete W code; w_info W] -> utf8_json j.
  Proof. intros Hc Hj. pose proof (mn_utf8 E W MN n code pos Hc) as H. rewrite Forall_forall in H. auto. Qed.

  Lemma not_handled ty m c s : ~ In ty handled_types -> run (handle E ty m c) s = (s, Ok tt).
  Proof.
    intros H. unfold handle. unfold handlers. cbn [mfind].
    repeat match goal with |- context [String.eqb ?a ?b] => destruct (String.eqb_spec a b) as [->|?]; [try (exfalso; apply H; cbn; tauto)|] end; try reflexivity.
    rewrite run_catch. unfold debug_request. rewrite ND. reflexivity.
  Qed.
  Lemma does_performs ty m c s gs n' h' : ready s -> utf8_json (m_content (m_base m)) ->
    does W T (e_regex E) c (k_pid s c) (k_phdr s) (k_count s) (k_history s) ty (m_content (m_base m)) gs n' h' ->
    exists s', run (handle E ty m c) s = (s', Ok tt) /\ told s gs n' h' s'.
  Proof.
    intros RD Hu D. remember (m_content (m_base m)) as content eqn:Hct.
    destruct D as [content p n' Hp Hn Hm|mm code pos H1 H2|mm code pos level H1 H2 H3|mm code H1|content j Hj|content name Hn|content|mm again H1|content|mm name H1 H2
      |ty mm id H1 H2 H3|ty content H1 H2 H3|ty content H1].
    - apply (performs_handle _ (execute_request E)); [reflexivity|now rewrite <- Hct|].
      destruct (exec_performs p c s n' RD (params_code_utf8 _ _ Hu Hp) Hn Hm) as (s' & r & R & K & Hr).
      rewrite Hct in Hp. exists s'. destruct Hr as [->|[w ->]]; exists (Ok tt); (split; [rewrite (execute_params E m c p s Hp), run_catch, R; reflexivity|]; split; [exact K|now left]).
    - apply (performs_handle _ (complete_request E)); [reflexivity|now rewrite <- Hct|]. pose proof (field_utf8 mm "code" "" code Hu ltac:(lit) H1) as Hc.
      apply str_field_value in H1. apply num_field_value in H2.
      apply then_reply with (e := EInterp (RComplete code pos)); auto; [|lit|apply (in_manner 0%Z pos code); cbn; auto].
      unfold complete_request. rewrite <- Hct. cbv zeta. rewrite (read_reply _ _ _ _ H1), (read_reply _ _ _ _ H2). rewrite (interp_reply (RComplete code pos) (w_complete W code pos)); [reflexivity|apply (mn_complete E W MN)].
    - apply (performs_handle _ (inspect_request E)); [reflexivity|now rewrite <- Hct|]. pose proof (field_utf8 mm "code" "" code Hu ltac:(lit) H1) as Hc.
      apply str_field_value in H1. apply num_field_value in H2, H3.
      apply then_reply with (e := EInterp (RInspect code pos level)); auto; [|lit|apply (in_manner 0%Z pos code); cbn; auto].
      unfold inspect_request. rewrite <- Hct. cbv zeta. rewrite (read_reply _ _ _ _ H1), (read_reply _ _ _ _ H2), (read_reply _ _ _ _ H3). rewrite (interp_reply (RInspect code pos level) (w_inspect W code)); [reflexivity|apply (mn_inspect E W MN)].
    - apply (performs_handle _ (is_complete_request E)); [reflexivity|now rewrite <- Hct|]. pose proof (field_utf8 mm "code" "" code Hu ltac:(lit) H1) as Hc.
      apply str_field_value in H1.
      apply then_reply with (e := EInterp (RIsComplete code)); auto; [|lit|apply (in_manner 0%Z 0%Z code); cbn; auto].
      unfold is_complete_request. rewrite <- Hct. cbv zeta. rewrite (read_reply _ _ _ _ H1). rewrite (interp_reply (RIsComplete code) (w_is_complete W code)); [reflexivity|apply (mn_is_complete E W MN)].
    - apply (performs_handle _ (history_request E)); [reflexivity|now rewrite <- Hct|].
      apply just_reply; auto; [|lit|exact (history_utf8 _ _ _ _ (rd_history _ RD) Hj)].
      unfold history_request. rewrite run_bind, run_kdo. cbn [kstep fst snd]. rewrite <- Hct. now rewrite (read_reply _ _ _ _ Hj).
    - apply (performs_handle _ (comm_info_request E)); [reflexivity|now rewrite <- Hct|].
      apply just_reply; auto; [|lit|js].
      unfold comm_info_request. rewrite <- Hct. cbv zeta.
      assert (V : exists v, (if is_null content then Ok "" else value_string "target_name" "" content) = Ok v).
      { destruct Hn as [->|(mm & -> & Hf)]; [now exists ""|]. apply str_field_value in Hf. cbn [is_null]. eauto. }
      destruct V as [v V]. rewrite (read_reply _ _ _ _ V). rewrite run_bind. unfold look_comms. rewrite run_bind, run_kdo. cbn [kstep fst snd]. rewrite (rd_registry _ RD). reflexivity.
    - apply (performs_handle _ (kernel_info_request E)); [reflexivity|now rewrite <- Hct|]. destruct (mn_info E W MN) as (j & J1 & J2).
      apply then_reply with (e := EInterp RKernelInfo); auto; [|lit|apply (in_manner 0%Z 0%Z ""); [lit|cbn; tauto]].
      unfold kernel_info_request. rewrite (interp_reply _ j) by exact J1. now rewrite (read_reply _ _ _ _ J2).
    - apply (performs_handle _ (shutdown_request E)); [reflexivity|now rewrite <- Hct|]. destruct (mn_shutdown E W MN) as [j J]. apply bool_field_value in H1.
      unfold performs, shutdown_request. rewrite <- Hct, (read_reply _ _ _ _ H1), (interp_reply _ j) by exact J. rewrite run_bind, run_emit. cbv zeta.
      set (s1 := add_event _ (add_event _ s)). assert (S1 : says s [] s1) by (apply (says_trans s [] (add_event (EInterp RShutdown) s) []); apply says_mark; reflexivity).
      destruct (publish_says E Q EU "shutdown" empty (jobj [("restart", JBool again)]) [] CONTROL s1) as (s2 & R2 & S2); [lit|js|js|apply (rd_parents _ RD)|].
      rewrite run_bind, R2. destruct (reply_says E Q EU "shutdown_reply" empty (jobj [("restart", JBool again)]) c s2) as (s3 & R3 & S3); [lit|js|js|rewrite (sy_phdr _ _ _ S2); apply (rd_parents _ RD)|].
      exists s3, (Ok tt). split; [exact R3|]. split; [|now left]. apply says_told. pose proof (says_trans _ _ _ _ _ (says_trans _ _ _ _ _ S1 S2) S3) as S.
      rewrite (sy_phdr _ _ _ S2), (sy_pid _ _ _ S2), (sy_phdr _ _ _ S1), (sy_pid _ _ _ S1) in S. exact S.
    - apply (performs_handle _ (interrupt_request E)); [reflexivity|now rewrite <- Hct|].
      unfold performs, interrupt_request.
      destruct (publish_says E Q EU "interrupt" empty empty [] CONTROL s) as (s2 & R2 & S2); [lit|js|js|apply (rd_parents _ RD)|].
      rewrite run_bind, R2. destruct (reply_says E Q EU "interrupt_reply" empty empty c s2) as (s3 & R3 & S3); [lit|js|js|rewrite (sy_phdr _ _ _ S2); apply (rd_parents _ RD)|].
      exists s3, (Ok tt). split; [exact R3|]. split; [|now left]. apply says_told. pose proof (says_trans _ _ _ _ _ S2 S3) as S.
      rewrite (sy_phdr _ _ _ S2), (sy_pid _ _ _ S2) in S. exact S.
    - apply (performs_handle _ (comm_open E)); [reflexivity|now rewrite <- Hct|].
      apply performs_throw with (w := "No such comm target registered"). unfold comm_open. rewrite <- Hct. cbv zeta.
      assert (V : (let* j := jget "target_name" (JObj mm) in get_string j) = Ok name) by (cbn [jget]; rewrite H1; reflexivity).
      rewrite (read_reply _ _ _ _ V). rewrite run_bind. unfold look_comms. rewrite run_bind, run_kdo. cbn [kstep fst snd]. rewrite run_res.
      destruct (mfind name (targets (k_comms s))) eqn:Hf; [|reflexivity]. destruct H2. apply (rd_targets _ RD). congruence.
    - assert (V : (let* j := jget "comm_id" (JObj mm) in to_xguid (e_long_id E) j) = Ok id).
      { cbn [jget]. rewrite H2. cbn [bind to_xguid get_string]. unfold fixed. replace (slen id <=? xguid_size) with true by (symmetry; apply Nat.leb_le; unfold xguid_size; lia). reflexivity. }
      assert (N : run (of_res (no_such_comm E id) : kprog unit unit) s = (s, Exn (Std ("No such comm registered: " +++ id)))).
      { rewrite run_res. unfold no_such_comm, fixed. replace (slen ("No such comm registered: " +++ id) <=? xguid_size) with true; [reflexivity|].
        symmetry. apply Nat.leb_le. rewrite slen_app. unfold xguid_size. cbn [slen]. lia. }
      destruct H1 as [<-|[<-|[]]]; [apply (performs_handle _ (comm_close E))|apply (performs_handle _ (comm_msg E))]; try reflexivity; try (now rewrite <- Hct);
        (apply performs_throw with (w := "No such comm registered: " +++ id); unfold comm_close, comm_msg; rewrite <- Hct; rewrite (read_reply _ _ _ _ V);
         rewrite run_bind; unfold look_comms; rewrite run_bind, run_kdo; cbn [kstep fst snd]; rewrite run_res, (rd_registry _ RD); cbn [mfind]; exact N).
    - assert (V : forall A (get : json -> res A) k d, jvalue get k d content = Exn type_error_306) by (intros; destruct content; try reflexivity; now destruct (H2 m0)).
      assert (G : forall k, jget k content = Exn type_error_305) by (intros; destruct content; try reflexivity; now destruct (H2 m0)).
      unfold reading_types in H1. cbn [In] in H1.
      repeat match type of H1 with _ \/ _ => destruct H1 as [<-|H1] end; [..|destruct H1]; cbn in H3.
      + exists s. split; [|apply says_told, says_refl]. cbn [handle]. unfold handle. cbn [handlers mfind String.eqb Ascii.eqb Bool.eqb]. rewrite run_catch.
        unfold execute_request. rewrite run_catch, <- Hct. cbv zeta. unfold value_string. rewrite V. reflexivity.
      + apply (performs_handle _ (complete_request E)); [reflexivity|now rewrite <- Hct|]. eapply performs_throw. unfold complete_request. rewrite <- Hct. cbv zeta. unfold value_string. rewrite V. reflexivity.
      + apply (performs_handle _ (inspect_request E)); [reflexivity|now rewrite <- Hct|]. eapply performs_throw. unfold inspect_request. rewrite <- Hct. cbv zeta. unfold value_string. rewrite V. reflexivity.
      + apply (performs_handle _ (history_request E)); [reflexivity|now rewrite <- Hct|]. eapply performs_throw. unfold history_request. rewrite <- Hct. rewrite run_bind, run_kdo. cbn [kstep fst snd].
        unfold process_request, value_string. rewrite V. reflexivity.
      + apply (performs_handle _ (is_complete_request E)); [reflexivity|now rewrite <- Hct|]. eapply performs_throw. unfold is_complete_request. rewrite <- Hct. unfold value_string. rewrite V. reflexivity.
      + apply (performs_handle _ (comm_info_request E)); [reflexivity|now rewrite <- Hct|]. eapply performs_throw. unfold comm_info_request. rewrite <- Hct. cbv zeta.
        replace (is_null content) with false by (destruct content; try reflexivity; now destruct H3). unfold value_string. rewrite V. reflexivity.
      + apply (performs_handle _ (comm_open E)); [reflexivity|now rewrite <- Hct|]. eapply performs_throw. unfold comm_open. rewrite <- Hct. cbv zeta. rewrite G. reflexivity.
      + apply (performs_handle _ (comm_close E)); [reflexivity|now rewrite <- Hct|]. eapply performs_throw. unfold comm_close. rewrite <- Hct, G. reflexivity.
      + apply (performs_handle _ (comm_msg E)); [reflexivity|now rewrite <- Hct|]. eapply performs_throw. unfold comm_msg. rewrite <- Hct, G. reflexivity.
      + apply (performs_handle _ (shutdown_request E)); [reflexivity|now rewrite <- Hct|]. eapply performs_throw. unfold shutdown_request. rewrite <- Hct. unfold value_bool. rewrite V. reflexivity.
    - exists s. split; [now apply not_handled|apply says_told, says_refl].
  Qed.
End Handlers.

(** ** Messages *)
Section Messages.
  Context (E : env unit) (W : manner) (T : string -> Prop).
  Implicit Types (s : kstate unit).
  Hypothesis SH : shipped E W T.
  Hypothesis EU : env_utf8 E.

  Lemma sh_quiet l : e_logger E l = Ok tt.
  Proof. destruct SH as [[]|[]]; auto. Qed.
  Lemma sh_nodebug : e_debugger E = None.
  Proof. destruct SH as [[]|[]]; auto. Qed.
  Lemma sh_mannered : mannered E W.
  Proof. destruct SH; auto using example_mannered, test_mannered. Qed.

  Lemma does_history c ids ph n h ty ct gs n' h' : utf8_json ct -> Forall entry_utf8 h -> does W T (e_regex E) c ids ph n h ty ct gs n' h' -> Forall entry_utf8 h'.
  Proof.
    intros Hu H D. destruct D; auto. apply Forall_app. split; auto. destruct (stores p); constructor; auto.
    repeat split; cbn; [lit|apply dec_utf8|eapply params_code_utf8; eauto|lit].
  Qed.
  Lemma reacts_run y c w gs y' s : ready T s -> memory_of s = y -> reacts W T E y c w gs y' ->
    exists s', run (dispatch E w c) s = (s', Ok tt) /\ ready T s' /\ memory_of s' = y' /\ k_shell s' = k_shell s /\
      exists evs, k_trace s' = (k_trace s ++ evs)%list /\ gists evs = gs.
  Proof.
    intros RD Hy H. destruct H as [y c w Hr|y c w m ty gs n' h' Ha Hty ph D].
    - exists s. split; [now apply run_dispatch_rejected|]. split; [exact RD|]. split; [exact Hy|]. split; [reflexivity|]. exists []. now rewrite app_nil_r.
    - destruct (run_dispatch_accepted E w c m ty s sh_quiet EU Ha Hty) as (fb & Hfb & R). cbv zeta in Hfb, R. set (sp := parented (m_ids m) (m_header (m_base m)) c s) in *.
      pose proof (accepted_header_utf8 E w m Ha) as Hh. pose proof (accepted_content_utf8 E w m Ha) as Hc.
      assert (Pp : k_phdr sp = ph) by (unfold ph; subst y; reflexivity).
      assert (Pc : ph c = m_header (m_base m)) by (unfold ph, with_parent; destruct c; reflexivity).
      assert (RDp : ready T sp).
      { destruct RD as [A B C D']. constructor; auto. intros c'. rewrite Pp. unfold ph, with_parent. subst y. destruct (chan_eqb c c'); [exact Hh|apply C]. }
      assert (Hb : run (publish_status E "busy" c) sp = (with_status E "busy" c fb sp, Ok tt)) by (apply run_status; [exact sh_quiet|exact Hfb]).
      set (s1 := with_status E "busy" c fb sp) in *.
      destruct (status_says E sh_quiet EU "busy" c sp) as (s1' & Hb' & S1); [lit|apply (rd_parents _ _ RDp)|]. rewrite Hb in Hb'. injection Hb' as <-.
      assert (RD1 : ready T s1) by (destruct S1 as [_ B1 B2 B3 B4 B5 B6], RDp; constructor; rewrite ?B2, ?B5, ?B6; auto).
      destruct (does_performs E W T sh_quiet EU sh_nodebug sh_mannered ty m c s1 gs n' h' RD1 Hc) as (s2 & R2 & K2).
      { rewrite (sy_pid _ _ _ S1), (sy_phdr _ _ _ S1), (sy_count _ _ _ S1), (sy_history _ _ _ S1), Pp.
        replace (k_pid sp c) with (m_ids m) by (unfold sp; cbn; now rewrite upd_same). subst y. exact D. }
      rewrite R2 in R. destruct (status_says E sh_quiet EU "idle" c s2) as (s3 & R3 & S3); [lit|rewrite (to_phdr _ _ _ _ _ K2); apply (rd_parents _ _ RD1)|].
      rewrite R3 in R. exists s3. split; [exact R|]. pose proof (told_says _ _ _ _ _ _ _ (says_told_trans _ _ _ _ _ _ _ S1 K2) S3) as K.
      rewrite (to_phdr _ _ _ _ _ K2), (sy_phdr _ _ _ S1), Pp, Pc in K. destruct K as [(evs & KT & KG) K1 Kp K3 K4 K5 K6]. split; [|split; [|split]].
      + destruct RDp as [A B C D']. constructor; rewrite ?K5, ?K6, ?Kp; auto. eapply does_history; [exact Hc| |exact D]. subst y. exact D'.
      + unfold memory_of. rewrite K4, K5, Kp, Pp. reflexivity.
      + exact K3.
      + exists evs. split; [exact KT|]. rewrite KG. reflexivity.
  Qed.
  (** ** The start *)
  Lemma started q : exists k, run (kernel_start E) (kinit tt q) = (k, Ok tt) /\ ready T k /\ memory_of k = fresh /\ k_shell k = q /\
    gists (k_trace k) = [Said SHELL "status" (JObj []) (JObj [("execution_state", JStr "starting")])].
  Proof.
    assert (X : exists k0, run (embed E (e_configure E)) (kinit tt q) = (k0, Ok tt) /\ ready T k0 /\ memory_of k0 = fresh /\ k_shell k0 = q /\ k_trace k0 = []).
    { destruct SH as [[-> _ _ _ _ _ _]|[-> _ _ _ _ _ _]]; (eexists; split; [reflexivity|]; split; [|repeat split]).
      - constructor; [reflexivity|cbn; congruence|intros c; apply utf8_empty|constructor].
      - constructor; [reflexivity| |intros c; apply utf8_empty|constructor]. intros name. cbn [mfind]. 
        change (mfind name (targets (k_comms _))) with (mfind name [("test_target", (0, {| t_name := "test_target"; t_callback := Some 0; t_manager := true |}))]).
        cbn [mfind]. destruct (String.eqb_spec name "test_target"); [auto|congruence]. }
    destruct X as (k0 & R0 & RD & Hm & Hq & Ht). unfold kernel_start. rewrite run_bind, R0, run_bind. unfold build_start_msg. rewrite run_bind.
    change (run (new_header E "status") k0) with (tick k0, Ok (hdr E k0 "status")). cbv beta iota zeta. rewrite run_bind, run_res.
    destruct (pub_serialize_valid (e_crypto E) (e_auth E) (e_eh E)
      {| m_topic := "kernel_core." +++ e_kernel_id E +++ ".status";
         m_pbase := {| m_header := hdr E k0 "status"; m_parent_header := empty; m_metadata := empty; m_content := jobj [("execution_state", JStr "starting")]; m_buffers := [] |} |}) as [f Hf].
    { unfold base_parts; cbn [m_pbase m_header m_parent_header m_metadata m_content]. repeat apply Forall_cons; [apply hdr_utf8; [exact EU|lit]|js|js|js|constructor]. }
    rewrite Hf. rewrite run_ret. cbn [fst snd]. rewrite run_emit. eexists. split; [reflexivity|]. split; [|split; [|split]].
    - destruct RD. constructor; auto.
    - exact Hm.
    - exact Hq.
    - cbn [k_trace add_event set_trace tick set_clock set_guid]. rewrite Ht. unfold gists; cbn [flat_map gist_of app m_pbase m_header m_parent_header m_content]. rewrite type_in_hdr. reflexivity.
  Qed.
End Messages.

(** ** Runs of the server *)
Lemma episodes_handed ls es : episodes ls es -> handed ls = List.map fst es.
Proof.
  unfold handed. induction 1 as [|ls es c w _ IH|ls es c w l x _ IH|ls es l _ IH N1 N2]; [reflexivity|..]; rewrite flat_map_app; cbn [flat_map]; rewrite ?app_nil_r.
  - rewrite IH, map_app. reflexivity.
  - rewrite IH, !map_app. reflexivity.
  - rewrite IH. destruct l; try now rewrite app_nil_r. now destruct (N1 c w).
Qed.
Lemma episodes_took ls es : episodes ls es -> (forall c w l, In (c, w, l) es -> l = []) -> forall w, ~ In (Took w) ls.
Proof.
  induction 1 as [|ls es c w H IH|ls es c w l x H IH|ls es l H IH N1 N2]; intros A w0 Hin; [contradiction|..]; apply in_app_or in Hin as [Hin|[Hin|[]]].
  - eapply IH; [|exact Hin]. intros c' w' l' Hx. eapply A. apply in_or_app. left. exact Hx.
  - discriminate.
  - specialize (A c w (l ++ [x])%list ltac:(apply in_or_app; right; left; reflexivity)). destruct l; discriminate.
  - specialize (A c w (l ++ [x])%list ltac:(apply in_or_app; right; left; reflexivity)). destruct l; discriminate.
  - eapply IH; eauto.
  - subst. now destruct (N2 w0).
Qed.
Section Runs.
  Context (E : env unit) (W : manner) (T : string -> Prop).
  Hypothesis SH : shipped E W T.
  Hypothesis EU : env_utf8 E.
  Implicit Types (k : kstate unit).
  Lemma ready_shell k l : ready T k -> ready T (set_shell l k).
  Proof. intros []. constructor; auto. Qed.
  Lemma session_snoc y ws c w gs y' : session W T E y (ws ++ [(c, w)]) gs y' ->
    exists gs0 y0 gs1, session W T E y ws gs0 y0 /\ reacts W T E y0 c w gs1 y' /\ gs = (gs0 ++ gs1)%list.
  Proof.
    intros H. remember (ws ++ [(c, w)])%list as l eqn:El. destruct H as [y0|y0 ws0 gs0 y1 c0 w0 gs1 y2 H1 H2].
    - destruct ws; discriminate.
    - apply app_inj_tail in El as [-> [= -> ->]]. eauto 10.
  Qed.
  Lemma served_session es k k1 : served E es k k1 -> k_shell k = [] -> ready T k -> forall gs y, session W T E (memory_of k) (List.map fst es) gs y ->
    ready T k1 /\ memory_of k1 = y /\ k_shell k1 = [] /\ (forall c w l, In (c, w, l) es -> l = []) /\ exists evs, k_trace k1 = (k_trace k ++ evs)%list /\ gists evs = gs.
  Proof.
    induction 1 as [k|es c w l k k0 k1 H IH R Hs]; intros Hk RD gs y S.
    - cbn [map] in S. remember (@nil (channel * frames)) as l eqn:El. remember (memory_of k) as y0 eqn:Ey. destruct S as [y0|y0 ws0 gs0 y1 c0 w0 gs1 y2 H1 H2].
      + split; [auto|]. split; [auto|]. split; [auto|]. split; [intros c w l []|]. exists []. now rewrite app_nil_r.
      + destruct ws0; discriminate.
    - rewrite map_app in S. cbn [map fst] in S. apply session_snoc in S as (gs0 & y0 & gs1 & S0 & S1 & ->).
      destruct (IH Hk RD _ _ S0) as (RD0 & M0 & K0 & L0 & evs0 & T0 & G0).
      destruct (reacts_run E W T SH EU y0 c w gs1 y (set_shell (List.map Some l) k0)) as (k2 & R2 & RD2 & M2 & Sh2 & evs & T2 & G2);
        [now apply ready_shell|exact M0|exact S1|].
      rewrite R in R2. injection R2 as <-. split; [exact RD2|]. split; [exact M2|]. split; [exact Hs|]. split.
      + intros c' w' l' Hin. apply in_app_or in Hin as [Hin|[[= <- <- <-]|[]]]; [eauto|].
        rewrite Hs in Sh2. cbn [k_shell set_shell] in Sh2. destruct l; [reflexivity|discriminate].
      + exists (evs0 ++ evs)%list. split; [rewrite T2; cbn [k_trace set_shell]; rewrite T0; now rewrite app_assoc|]. unfold gists in *. rewrite flat_map_app. now rewrite G0, G2.
  Qed.
  Lemma run_session k r start ls s gs y : e_split E = false -> run (kernel_start E) (kinit tt []) = (k, r) ->
    drun (fun c w => dispatch E w c) (d_init k start) ls s -> session W T E fresh (handed ls) gs y ->
    place_of (d_pc s) <> Failed /\ (forall w, ~ In (Took w) ls) /\ prefix (gists (happened ls)) gs /\
    (place_of (d_pc s) = Between -> gists (happened ls) = gs /\ memory_of (m_k (d_mem s)) = y).
  Proof.
    intros Hsp R0 Hrun S. destruct (started E W T SH EU []) as (k' & R' & RD & Hm & Hq & _). rewrite R0 in R'. injection R' as <- ->.
    destruct (sequence E Hsp k start ls s Hrun) as (es & He & Ht & P). rewrite (episodes_handed _ _ He) in S.
    assert (RDb : ready T (bare k)) by now apply ready_shell. assert (Hmb : fresh = memory_of (bare k)) by (rewrite <- Hm; reflexivity). rewrite Hmb in S.
    assert (Hcancel : forall evs, (k_trace k ++ happened ls)%list = (k_trace (bare k) ++ evs)%list -> happened ls = evs) by (intros evs; cbn [bare k_trace set_shell]; apply app_inv_head).
    destruct (place_of (d_pc s)) eqn:Hp.
    - destruct (served_session _ _ _ P eq_refl RDb _ _ S) as (_ & M & _ & L & evs & TT & G). cbn [bare k_trace set_shell] in TT. rewrite Ht in TT. apply app_inv_head in TT as ->.
      split; [discriminate|]. split; [eapply episodes_took; eauto|]. split; [exists []; now rewrite app_nil_r|]. intros _. split; [exact G|exact M].
    - destruct P as (es' & c & w & l & k0 & k1 & r1 & -> & P & R1 & Sh1 & Pre0 & Pre1). rewrite map_app in S. cbn [map fst] in S.
      apply session_snoc in S as (gs0 & y0 & gs1 & S0 & S1 & ->). destruct (served_session _ _ _ P eq_refl RDb _ _ S0) as (RD0 & M0 & K0 & L0 & evs0 & T0 & G0).
      destruct (reacts_run E W T SH EU y0 c w gs1 y (set_shell (List.map Some l) k0)) as (k2 & R2 & RD2 & M2 & Sh2 & evs & T2 & G2);
        [now apply ready_shell|exact M0|exact S1|]. rewrite R1 in R2. injection R2 as <- ->. rewrite Sh1 in Sh2. cbn [k_shell set_shell] in Sh2.
      split; [discriminate|]. split; [|split; [|discriminate]].
      + eapply episodes_took; [exact He|]. intros c' w' l' Hin. apply in_app_or in Hin as [Hin|[[= <- <- <-]|[]]]; [eauto|]. destruct l; [reflexivity|discriminate].
      + destruct Pre1 as [rest Hr]. rewrite T2 in Hr. cbn [k_trace set_shell] in Hr. rewrite T0, Ht in Hr. cbn [bare k_trace set_shell] in Hr. rewrite <- !app_assoc in Hr. apply app_inv_head in Hr.
        exists (gists rest). rewrite <- G0, <- G2. unfold gists. rewrite <- !flat_map_app. now f_equal.
    - exfalso. destruct P as (es' & c & w & l & k0 & r1 & -> & P & R1 & N). rewrite map_app in S. cbn [map fst] in S.
      apply session_snoc in S as (gs0 & y0 & gs1 & S0 & S1 & ->). destruct (served_session _ _ _ P eq_refl RDb _ _ S0) as (RD0 & M0 & K0 & L0 & evs0 & T0 & G0).
      destruct (reacts_run E W T SH EU y0 c w gs1 y (set_shell (List.map Some l) k0)) as (k2 & R2 & _); [now apply ready_shell|exact M0|exact S1|]. congruence.
  Qed.
End Runs.

(** ** One message after the other *)
Section Serving.
  Context (E : env unit) (W : manner) (T : string -> Prop).
  Hypothesis SH : shipped E W T.
  Hypothesis EU : env_utf8 E.
  Implicit Types (k : kstate unit).
  Lemma serves_snoc ws c w k k' : KernelSession.serves E (ws ++ [(c, w)]) k k' ->
    exists k1, KernelSession.serves E ws k k1 /\ k' = fst (run (dispatch E w c) k1).
  Proof.
    revert k. induction ws as [|[c0 w0] ws IH]; intros k H; cbn [app] in H.
    - inversion H as [|? ? ? ? ? H1]; subst. inversion H1; subst. exists k. split; [constructor|reflexivity].
    - inversion H as [|? ? ? ? ? H1]; subst. destruct (IH _ H1) as (k1 & A & B). exists k1. split; [now constructor|exact B].
  Qed.
  Lemma session_serves y ws gs y' : session W T E y ws gs y' -> forall k k', ready T k -> memory_of k = y -> KernelSession.serves E ws k k' ->
    ready T k' /\ memory_of k' = y' /\ exists evs, k_trace k' = (k_trace k ++ evs)%list /\ gists evs = gs.
  Proof.
    induction 1 as [y|y ws gs y1 c w gs1 y2 S IH R]; intros k k' RD M H.
    - inversion H; subst. split; [auto|]. split; [auto|]. exists []. now rewrite app_nil_r.
    - apply serves_snoc in H as (k1 & H1 & ->). destruct (IH k k1 RD M H1) as (RD1 & M1 & evs & T1 & G1).
      destruct (reacts_run E W T SH EU _ c w gs1 y2 k1 RD1 M1 R) as (k2 & R2 & RD2 & M2 & _ & evs2 & T2 & G2). rewrite R2. cbn [fst].
      split; [exact RD2|]. split; [exact M2|]. exists (evs ++ evs2)%list. split; [rewrite T2, T1; now rewrite app_assoc|]. unfold gists in *. rewrite flat_map_app. now rewrite G1, G2.
  Qed.
End Serving.

(** ** These kernels never wait for input *)
Section Deaf.
  Context (E : env unit) (W : manner) (T : string -> Prop).
  Hypothesis SH : shipped E W T.
  Definition deaf (o : kop unit) : Prop := match o with KStdin => False | _ => True end.
  Ltac df := repeat match goal with
    | |- always _ (tbind _ _) => apply always_bind; [|intros ?]
    | |- always _ (catch_std _ _) => apply always_catch
    | |- always _ (attempt _) => apply always_attempt
    | |- always _ (of_res _) => apply always_of_res
    | |- always _ (kdo _) => split; [exact I | intros ?; exact I]
    | |- always _ (Ret _) => exact I
    | |- always _ (Throw _) => exact I
    | |- always _ (Stuck _) => exact I
    | |- always _ (match ?x with _ => _ end) => destruct x
    | _ => progress unfold log, emit, new_guid, now, new_header, get_metadata, with_comms, look_comms
    end.
  Lemma deaf_publish ty md ct bufs c : always deaf (publish_message E ty md ct bufs c).
  Proof. unfold publish_message. cbv zeta. df. Qed.
  Lemma deaf_reply ty md ct c : always deaf (send_reply E ty md ct c).
  Proof. unfold send_reply, send_reply_to. cbv zeta. df. Qed.
  Lemma deaf_call o k : always deaf (api0 E o) -> always deaf (embed E k) -> always deaf (embed E (call o k)).
  Proof.
    intros H1 H2. change (embed E (call o k)) with (tbind (attempt (api0 E o)) (fun r => embed E (match r with inl _ => k | inr e => Throw e end))).
    apply always_bind; [now apply always_attempt|]. intros [|]; [exact H2|exact I].
  Qed.
  Lemma deaf_interp r : always deaf (interp E r).
  Proof.
    unfold interp. apply always_bind; [split; [exact I|intros ?; exact I]|]. intros _.
    destruct SH as [[_ -> _ _ _ _ _]|[_ -> _ _ _ _ _]]; destruct r; try exact I; cbn [custom_interpreter test_interpreter].
    - unfold custom_execute. apply deaf_call; [apply deaf_publish|]. apply deaf_call; [apply deaf_publish|]. exact I.
    - unfold test_execute. cbv zeta. repeat match goal with |- context [if ?b then _ else _] => destruct b end; repeat (apply deaf_call; [apply deaf_publish|]); exact I.
  Qed.
  Lemma deaf_run_handler h m : always deaf (run_handler E h m).
  Proof. unfold run_handler. destruct SH as [[_ _ _ Hh _ _ _]|[_ _ _ Hh _ _ _]]; destruct h; try exact I; (apply always_bind; [split; [exact I|intros ?; exact I]|]); intros _; rewrite Hh; exact I. Qed.
  Lemma deaf_run_callback h a m : always deaf (run_callback E h a m).
  Proof. unfold run_callback. destruct SH as [[_ _ Hh _ _ _ _]|[_ _ Hh _ _ _ _]]; destruct h; try exact I; (apply always_bind; [split; [exact I|intros ?; exact I]|]); intros _; rewrite Hh; exact I. Qed.
  Ltac dd := repeat (df; try match goal with
    | |- always _ (publish_message _ _ _ _ _ _) => apply deaf_publish
    | |- always _ (send_reply _ _ _ _ _) => apply deaf_reply
    | |- always _ (interp _ _) => apply deaf_interp
    | |- always _ (run_handler _ _ _) => apply deaf_run_handler
    | |- always _ (run_callback _ _ _ _) => apply deaf_run_callback
    end).
  Lemma deaf_abort n : always deaf (abort_loop E n).
  Proof. induction n as [|n IH]; cbn [abort_loop]; dd; auto. unfold abort_request, send_reply_to. cbv zeta. dd. Qed.
  Lemma deaf_handler ty h m c : mfind ty (handlers E) = Some h -> always deaf (h m c).
  Proof.
    unfold handlers. cbn [mfind]. repeat (match goal with |- context [String.eqb ?a ?b] => destruct (String.eqb a b) end; [intros [= <-]|]); try discriminate.
    - unfold execute_request, interp_execute, publish_execution_input, abort_queue. cbv zeta. dd. apply deaf_abort.
    - unfold complete_request. cbv zeta. dd.
    - unfold inspect_request. cbv zeta. dd.
    - unfold history_request. cbv zeta. dd.
    - unfold is_complete_request. cbv zeta. dd.
    - unfold comm_info_request. cbv zeta. dd.
    - unfold comm_open. cbv zeta. dd.
    - unfold comm_close. cbv zeta. dd.
    - unfold comm_msg. cbv zeta. dd.
    - unfold kernel_info_request. cbv zeta. dd.
    - unfold shutdown_request. cbv zeta. dd.
    - unfold interrupt_request. cbv zeta. dd.
    - unfold debug_request. rewrite (sh_nodebug E W T SH). exact I.
  Qed.
  Lemma deaf_dispatch w c : always deaf (dispatch E w c).
  Proof.
    unfold dispatch, set_parent, publish_status. cbv zeta. dd. unfold handle.
    match goal with |- always _ (match mfind ?t _ with _ => _ end) => destruct (mfind t (handlers E)) as [h|] eqn:Hf; [|exact I] end. dd. eapply deaf_handler; eauto.
  Qed.
End Deaf.
Section Listening.
  Context (P : kop unit -> Prop) (listener : channel -> frames -> kprog unit unit) (HL : forall c w, always P (listener c w)).
  Lemma keeps_programs k start ls s : drun listener (d_init k start) ls s -> match d_pc s with MInControl p _ | MInShell p => always P p | _ => True end.
  Proof.
    intros H. remember (d_init k start) as s0 eqn:E0. induction H as [s|s ls s1 l s2 H IH St]; [subst; exact I|]. specialize (IH E0). clear H E0.
    destruct St as [s1 l s2 M| | | | | |]; try exact IH. destruct M; cbn in *; auto; try (lazymatch type of IH with _ /\ _ => destruct IH as [_ IH]; auto end).
    - destruct rc; exact I.
    - destruct (negb (m_stop m) && rs); exact I.
  Qed.
End Listening.
