(** execute_request and the abort loop. *)
From Verif Require Import Base BaseFacts Json JsonText Utf8 Utf8Proofs JsonTextProofs Auth Message MessageProofs WireSpec History HistoryProofs Comm Tree Kernel KernelSpec KernelProofs KernelRun KernelHandlers.

(** ** Reply types of aborted requests *)
Lemma last_underscore_none s : last_underscore s = None -> no_underscore s.
Proof.
  induction s as [|c s IH]; cbn [last_underscore]; intros H a b.
  - destruct a; discriminate.
  - destruct (last_underscore s) eqn:L; [discriminate|]. destruct (Ascii.eqb_spec c "_") as [->|n]; [discriminate|].
    destruct a as [|x a]; cbn; intros [= -> ->]; [now apply n|]. now apply (IH eq_refl a b).
Qed.
Lemma no_underscore_none s : no_underscore s -> last_underscore s = None.
Proof.
  induction s as [|c s IH]; cbn [last_underscore]; intros H; auto.
  rewrite IH.
  - destruct (Ascii.eqb_spec c "_") as [->|n]; auto. now destruct (H "" s).
  - intros a b ->. now apply (H (String c a) b).
Qed.
Lemma last_underscore_some s n : last_underscore s = Some n ->
  exists x y, s = x +++ "_" +++ y /\ slen x = n /\ no_underscore y.
Proof.
  revert n; induction s as [|c s IH]; cbn [last_underscore]; intros n H; [discriminate|].
  destruct (last_underscore s) as [k|] eqn:L.
  - injection H as <-. destruct (IH k eq_refl) as (x & y & -> & <- & Hy). exists (String c x), y. auto.
  - destruct (Ascii.eqb_spec c "_") as [->|]; [|discriminate]. injection H as <-.
    exists "", s. repeat split; auto. now apply last_underscore_none.
Qed.
Lemma last_underscore_at x y : no_underscore y -> last_underscore (x +++ "_" +++ y) = Some (slen x).
Proof.
  intros H. induction x as [|c x IH]; cbn [append last_underscore slen].
  - now rewrite no_underscore_none.
  - cbn [append] in IH. now rewrite IH.
Qed.
Lemma sdrop_add a b s : sdrop (a + b) s = sdrop b (sdrop a s).
Proof. revert s; induction a as [|a IH]; intros [|c s]; cbn; auto. now destruct b. Qed.
Lemma sdrop_all n s : slen s <= n -> sdrop n s = "".
Proof. revert s; induction n as [|n IH]; intros [|c s]; cbn; auto; try lia. intros; apply IH; lia. Qed.
Lemma reply_type_spec ty rty : reply_type_of ty = Ok rty <-> abort_type ty rty.
Proof.
  unfold reply_type_of. split.
  - destruct (last_underscore ty) as [n|] eqn:L; [|discriminate]. intros [= <-].
    destruct (last_underscore_some _ _ L) as (x & y & -> & <- & Hy).
    rewrite stake_app by reflexivity. rewrite sdrop_add, sdrop_app by reflexivity.
    change (sdrop 8 ("_" +++ y)) with (sdrop 7 y).
    exists x, (stake 7 y), (sdrop 7 y). rewrite stake_sdrop. repeat split; auto.
    rewrite stake_len. destruct (le_lt_dec 7 (slen y)); [left; lia | right]. split; [lia|]. apply sdrop_all. lia.
  - intros (x & y & z & -> & Hn & Hl & ->). rewrite last_underscore_at by auto.
    rewrite stake_app by reflexivity. rewrite sdrop_add, sdrop_app by reflexivity.
    change (sdrop 8 ("_" +++ y +++ z)) with (sdrop 7 (y +++ z)).
    destruct Hl as [Hl|[Hl ->]]; [now rewrite sdrop_app|]. rewrite sapp_nil_r, sdrop_all by lia. reflexivity.
Qed.

Lemma urun_ascii st c : st <= 8 -> st <> 0 -> (code c < 0x80)%N -> urun st (String c "") = 1.
Proof.
  intros H1 H2 Hc. cbn [urun]. unfold nxt.
  do 9 (destruct st as [|st]; [try lia; unfold rng; repeat rewrite ?(proj2 (N.leb_gt _ _)) by lia; reflexivity|]). lia.
Qed.
Lemma urun_le s st : st <= 8 -> urun st s <= 8.
Proof.
  revert st; induction s as [|c s IH]; intros st H; cbn [urun]; auto. apply IH.
  rewrite <- utf8_next_nxt by auto. now apply utf8_next_le.
Qed.
Lemma utf8_before x c y : (code c < 0x80)%N -> utf8_text (x +++ String c y) -> utf8_text x.
Proof.
  intros Hc H. apply is_utf8_valid_spec in H. apply is_utf8_valid_spec. rewrite is_utf8_valid_urun in *.
  apply Nat.eqb_eq in H. apply Nat.eqb_eq. rewrite urun_app in H. change (String c y) with (String c "" +++ y) in H. rewrite urun_app in H.
  destruct (Nat.eq_dec (urun 0 x) 0) as [e|n]; auto.
  rewrite urun_ascii in H by (auto; apply urun_le; lia). rewrite urun_1 in H. discriminate.
Qed.
Lemma utf8_app x y : utf8_text x -> utf8_text y -> utf8_text (x +++ y).
Proof.
  intros H1 H2. apply is_utf8_valid_spec in H1, H2. apply is_utf8_valid_spec. rewrite is_utf8_valid_urun in *.
  apply Nat.eqb_eq in H1, H2. apply Nat.eqb_eq. now rewrite urun_app, H1.
Qed.

(** ** Reading the header and the content *)
Lemma typed_value h ty : typed h ty <-> value_string "msg_type" "" h = Ok ty.
Proof.
  unfold typed, value_string, jvalue. split.
  - intros (m & -> & H). destruct (mfind "msg_type" m); subst; reflexivity.
  - destruct h; try discriminate. intros H. eexists. split; [reflexivity|].
    destruct (mfind "msg_type" m) as [j|]; [|congruence]. destruct j; try discriminate. cbn in H. congruence.
Qed.
Lemma value_string_cases k d j : (exists v, value_string k d j = Ok v) \/ exists w, value_string k d j = Exn (Std w).
Proof.
  unfold value_string, jvalue. destruct j; try (right; eexists; reflexivity).
  destruct (mfind k m) as [v|]; [|left; eauto]. destruct v; cbn; first [left; eauto; fail | right; eexists; reflexivity].
Qed.
Lemma value_bool_cases k d j : (exists v, value_bool k d j = Ok v) \/ exists w, value_bool k d j = Exn (Std w).
Proof.
  unfold value_bool, jvalue. destruct j; try (right; eexists; reflexivity).
  destruct (mfind k m) as [v|]; [|left; eauto]. destruct v; cbn; first [left; eauto; fail | right; eexists; reflexivity].
Qed.
Lemma value_int_cases k d j :
  (exists v, value_int k d j = Ok v) \/ (exists w, value_int k d j = Exn (Std w)) \/ exists w, value_int k d j = UB w.
Proof.
  unfold value_int, jvalue. destruct j; try (right; left; eexists; reflexivity).
  destruct (mfind k m) as [v|]; [|left; eauto].
  destruct v; cbn [get_int]; first [left; eexists; reflexivity | right; left; eexists; reflexivity | idtac].
  destruct (float_trunc lit) as [z|]; [destruct (in_int z)|]; eauto.
Qed.
Lemma str_field_value m k d v : value_string k d (JObj m) = Ok v <-> str_field m k d v.
Proof.
  split; [|apply value_string_field]. unfold value_string, jvalue, str_field. destruct (mfind k m) as [j|].
  - destruct j; try discriminate. cbn. intros [= ->]; auto.
  - intros [= ->]; auto.
Qed.
Lemma bool_field_value m k d v : value_bool k d (JObj m) = Ok v <-> bool_field m k d v.
Proof.
  split; [|apply value_bool_field]. unfold value_bool, jvalue, bool_field. destruct (mfind k m) as [j|].
  - destruct j; try discriminate. cbn. intros [= ->]; auto.
  - intros [= ->]; auto.
Qed.
Lemma num_field_value m k d v : value_int k d (JObj m) = Ok v <-> num_field m k d v.
Proof.
  unfold value_int, jvalue, num_field. destruct (mfind k m) as [j|].
  - split; [intros H; right; eauto | intros [[? _]|(x & [= <-] & H)]; [discriminate | exact H]].
  - split; [intros [= ->]; auto | intros [[_ ->]|(x & H & _)]; [reflexivity | discriminate]].
Qed.
Lemma any_field_value m k d v : value_json k d (JObj m) = Ok v <-> any_field m k d v.
Proof.
  unfold value_json, jvalue, any_field. destruct (mfind k m) as [j|].
  - split; [intros [= ->]; auto | intros [[? _]|[= ->]]; [discriminate | reflexivity]].
  - split; [intros [= ->]; auto | intros [[_ ->]|H]; [reflexivity | discriminate]].
Qed.
Lemma num_field_det m k d v w : num_field m k d v -> num_field m k d w -> v = w.
Proof. rewrite <- !num_field_value. congruence. Qed.

(** Whether the content is well formed is decidable. *)
Lemma classic_params ct : (exists p, exec_params ct p) \/ forall p, ~ exec_params ct p.
Proof.
  destruct ct as [| | | | | | m]; try (right; intros p (m & H & _); discriminate).
  assert (X : forall v1 v2 v3 v4 v5 v6 v7,
    value_string "code" "" (JObj m) = v1 -> value_bool "silent" false (JObj m) = v2 -> value_bool "store_history" true (JObj m) = v3 ->
    value_int "execution_count" 1%Z (JObj m) = v4 -> value_json "user_expressions" (JObj []) (JObj m) = v5 ->
    value_bool "allow_stdin" true (JObj m) = v6 -> value_bool "stop_on_error" false (JObj m) = v7 ->
    (exists p, exec_params (JObj m) p) \/ (forall p, ~ exec_params (JObj m) p)).
  { intros v1 v2 v3 v4 v5 v6 v7 H1 H2 H3 H4 H5 H6 H7.
    destruct (is_ok v1 && is_ok v2 && is_ok v3 && is_ok v4 && is_ok v5 && is_ok v6 && is_ok v7) eqn:B.
    - left. destruct v1 as [v1| |], v2 as [v2| |], v3 as [v3| |], v4 as [v4| |], v5 as [v5| |], v6 as [v6| |], v7 as [v7| |]; try discriminate.
      exists {| x_code := v1; x_silent := v2; x_store := v3; x_count := v4; x_ue := v5; x_stdin := v6; x_stop := v7 |}.
      exists m. cbn [x_code x_silent x_store x_count x_ue x_stdin x_stop].
      apply str_field_value in H1. apply bool_field_value in H2, H3, H6, H7. apply num_field_value in H4. apply any_field_value in H5. auto 10.
    - right. intros p (m' & [= <-] & F1 & F2 & F3 & F4 & F5 & F6 & F7).
      apply str_field_value in F1. apply bool_field_value in F2, F3, F6, F7. apply num_field_value in F4. apply any_field_value in F5.
      subst. rewrite F1, F2, F3, F4, F5, F6, F7 in B. discriminate. }
  eapply X; reflexivity.
Qed.

Section Abort.
  Context {U : Type} (E : env U).
  Implicit Types (s : kstate U).

  (** ** One aborted request *)
  Lemma deserialize_cases w : (exists m, accepted E w m) \/ rejected E w \/ is_ub (deserialize (e_crypto E) (e_auth E) w) = true.
  Proof.
    unfold accepted, rejected. destruct (deserialize (e_crypto E) (e_auth E) w) as [m|e|u] eqn:D; eauto.
    apply deserialize_exn_std in D as X. destruct e; [|discriminate]. eauto.
  Qed.
  Lemma run_abort_request w s :
    (run (abort_request E w) s = (s, Ok tt) /\ rejected E w) \/
    (exists m ty rty f, let r := reply_msg E s (m_ids m) rty (m_header (m_base m)) empty (jobj [("status", JStr "error")]) in
       accepted E w m /\ typed (m_header (m_base m)) ty /\ abort_type ty rty /\
       serialize (e_crypto E) (e_auth E) (e_eh E) r = Ok f /\
       run (abort_request E w) s = (add_event (ESend SHELL r f) (tick s), Ok tt)) \/
    (exists x s', run (abort_request E w) s = (s', x) /\ is_ok x = false /\ (s' = s \/ s' = tick s) /\
       (quiet E -> (exists e, x = Exn (Std e)) \/ is_ub x = true /\ fatal E w) /\
       (quiet E -> env_utf8 E -> ~ abortable E w)).
  Proof.
    unfold abort_request. rewrite run_bind, run_catch, run_bind, run_res.
    destruct (deserialize_cases w) as [[m Hm]|[[e He]|Hu]].
    2: { left. rewrite He. cbn [run exec of_res]. split; auto. exists e; auto. }
    2: { right; right. destruct (deserialize (e_crypto E) (e_auth E) w) eqn:D; try discriminate.
         eexists _, s. split; [reflexivity|]. split; [reflexivity|]. split; auto. split; [right; unfold fatal; rewrite D; auto|].
         intros _ _ [[x Hx]|(m & x & y & Hx & _)]; unfold accepted in *; congruence. }
    right. unfold accepted in Hm. rewrite Hm. rewrite run_ret. rewrite run_bind, run_res. cbn beta iota zeta.
    assert (Hnot : forall T : Prop, (forall ty, value_string "msg_type" "" (m_header (m_base m)) = Ok ty -> (forall x y, ty = x +++ "_" +++ y -> no_underscore y -> slen y <= 7 -> utf8_text (x +++ "_" +++ y) -> T)) -> abortable E w -> T).
    { intros T HT [[x Hx]|(m' & x & y & Hx & Hty & Hy & Hl)]; unfold accepted in *; [congruence|].
      assert (m' = m) as -> by congruence. pose proof Hty as Hty2. apply typed_value in Hty. eapply HT; eauto.
      apply accepted_utf8 in Hm. unfold base_parts in Hm. inversion Hm as [|h t Hh _]; subst.
      destruct Hty2 as (mm & Hmm & Hf). rewrite Hmm in *.
      destruct (mfind "msg_type" mm) as [j|] eqn:Hj; [|destruct x; discriminate]. subst j.
      apply Hh. apply si_member with (k := "msg_type") (x := JStr (x +++ "_" +++ y)); [now apply mfind_in | constructor]. }
    destruct (value_string_cases "msg_type" "" (m_header (m_base m))) as [[ty Hty]|[e He]].
    2: { right. rewrite He. eexists _, s. split; [reflexivity|]. split; [reflexivity|]. split; auto. split; [eauto|]. intros _ _.
         refine (Hnot False _). intros ty Hty. rewrite He in Hty. discriminate. }
    rewrite Hty. rewrite run_bind, run_res.
    destruct (reply_type_of ty) as [rty|e|u] eqn:Hr.
    2,3: right; eexists _, s; split; [reflexivity|]; split; [reflexivity|]; split; auto;
         (split; [unfold reply_type_of in Hr; destruct (last_underscore ty); [discriminate | try discriminate; injection Hr as <-; eauto]|]); intros _ _;
         refine (Hnot False _); intros ty' Hty' x y Exy Hy Hl _; replace ty' with ty in * by congruence; subst ty;
         assert (X : reply_type_of (x +++ "_" +++ y) = Ok (x +++ "_reply" +++ "")) by
          (apply reply_type_spec; exists x, y, ""; rewrite sapp_nil_r; repeat split; auto; destruct (Nat.eq_dec (slen y) 7); [left | right; split]; auto; lia);
         congruence.
    rewrite run_reply_to. cbv zeta.
    destruct (e_logger E _) as [u|e|u] eqn:Hlog.
    2,3: right; eexists _, _; split; [reflexivity|]; split; [reflexivity|]; split; auto; split; intros Hq; rewrite Hq in Hlog; discriminate.
    destruct (serialize (e_crypto E) (e_auth E) (e_eh E) _) as [f|e|u'] eqn:Hs.
    - left. exists m, ty, rty, f. split; [exact Hm|]. split; [now apply typed_value|]. split; [now apply reply_type_spec|]. split; auto.
    - right. eexists _, _; split; [reflexivity|]; split; [reflexivity|]; split; auto. split.
      { intros _. left. destruct (serialize_cases (e_crypto E) (e_auth E) (e_eh E) (reply_msg E s (m_ids m) rty (m_header (m_base m)) empty (jobj [("status", JStr "error")]))) as [[f Hf]|Hf]; [congruence|].
        rewrite Hf in Hs. injection Hs as <-. unfold type_error_316. eauto. }
      intros Hq Hu.
      refine (Hnot False _). intros ty' Hty' x y Exy Hy Hl Hutf. replace ty' with ty in * by congruence. subst ty.
      assert (X : reply_type_of (x +++ "_" +++ y) = Ok (x +++ "_reply" +++ "")).
      { apply reply_type_spec; exists x, y, ""; rewrite sapp_nil_r; repeat split; auto; destruct (Nat.eq_dec (slen y) 7); [left | right; split]; auto; lia. }
      rewrite X in Hr. injection Hr as <-.
      destruct (serialize_valid (e_crypto E) (e_auth E) (e_eh E) (reply_msg E s (m_ids m) (x +++ "_reply") (m_header (m_base m)) empty (jobj [("status", JStr "error")]))) as [f Hf]; [|congruence].
      apply accepted_utf8 in Hm. unfold base_parts in *. inversion Hm; subst. cbn [m_base reply_msg m_header m_parent_header m_metadata m_content].
      destruct Hu as (U1 & U2 & U3 & U4).
      repeat apply Forall_cons; auto.
      + unfold hdr. apply utf8_header; auto. apply utf8_app; [|apply utf8_lit; reflexivity].
        eapply utf8_before; [|exact Hutf]. reflexivity.
      + apply utf8_empty.
      + apply utf8_obj. repeat constructor; cbn [fst snd]; [apply utf8_lit; reflexivity | apply utf8_str, utf8_lit; reflexivity].
    - destruct (serialize_cases (e_crypto E) (e_auth E) (e_eh E) (reply_msg E s (m_ids m) rty (m_header (m_base m)) empty (jobj [("status", JStr "error")]))) as [[f Hf]|Hf]; congruence.
  Qed.

  (** ** The abort loop *)
  Lemma aborts_le lo ws evs hi : aborts E lo ws evs hi -> lo <= hi.
  Proof. induction 1; lia. Qed.
  Record aframe (ws : list frames) (evs : list event) s s' : Prop := {
    af_pid : k_pid s' = k_pid s; af_phdr : k_phdr s' = k_phdr s; af_count : k_count s' = k_count s;
    af_hist : k_history s' = k_history s; af_comms : k_comms s' = k_comms s; af_user : k_user s' = k_user s;
    af_input : k_input s' = k_input s; af_value : k_value s' = k_value s; af_stdin : k_stdin s' = k_stdin s;
    af_trace : k_trace s' = (k_trace s ++ evs)%list;
    af_aborts : aborts E (k_guid s) ws evs (k_guid s')
  }.
  Definition abort_end (ws : list frames) s s' (x : res unit) : Prop :=
    (x = Ok tt /\ drained (k_shell s) ws (k_shell s')) \/
    (is_ok x = false /\ exists w, k_shell s = (List.map Some ws ++ Some w :: k_shell s')%list /\
       (quiet E -> (exists e, x = Exn (Std e)) \/ is_ub x = true /\ fatal E w) /\
       (quiet E -> env_utf8 E -> ~ abortable E w)).
  Lemma run_abort_loop n : forall s, List.length (k_shell s) < n ->
    exists ws evs s' x, run (abort_loop E n) s = (s', x) /\ aframe ws evs s s' /\ abort_end ws s s' x.
  Proof.
    induction n as [|n IH]; intros s Hn; [lia|]. cbn [abort_loop]. rewrite run_bind, run_kdo. cbn [kstep].
    destruct (k_shell s) as [|[w|] q] eqn:Q; cbn [fst snd].
    - exists [], [], s, (Ok tt). split; [reflexivity|]. split; [constructor; auto; [now rewrite app_nil_r | constructor; lia]|].
      left. split; auto. right. rewrite Q. auto.
    - rewrite run_bind. destruct (run_abort_request w (set_shell q s)) as [[-> Hr]|[(m & ty & rty & f & Hm & Ht & Ha & Hs & ->)|(x & s1 & -> & Hx & Hs1 & Hna)]].
      + destruct (IH (set_shell q s)) as (ws & evs & s' & x & -> & [A1 A2 A3 A4 A5 A6 A7 A8 A9 A10 A11] & He); [cbn in *; lia|].
        exists (w :: ws), evs, s', x. split; auto. split; [constructor; auto; now apply ab_skip|].
        destruct He as [[-> [Hd|[Hd Hd2]]]|(Hx & w' & Hd & Hw')]; cbn [k_shell set_shell] in Hd.
        * left. split; auto. left. cbn [List.map app]. now rewrite Q, Hd.
        * left. split; auto. right. cbn [List.map app]. now rewrite Q, Hd.
        * right. split; auto. exists w'. cbn [List.map app]. now rewrite Q, Hd.
      + set (s1 := add_event _ _). assert (k_guid s1 = S (k_guid s)) as Hg by reflexivity.
        destruct (IH s1) as (ws & evs & s' & x & -> & [A1 A2 A3 A4 A5 A6 A7 A8 A9 A10 A11] & He); [cbn in *; lia|].
        exists (w :: ws), (ESend SHELL (reply_msg E (set_shell q s) (m_ids m) rty (m_header (m_base m)) empty (jobj [("status", JStr "error")])) f :: evs), s', x.
        split; auto. split.
        { constructor; auto; [rewrite A10; unfold s1; cbn [k_trace add_event set_trace tick set_clock set_guid set_shell]; now rewrite <- app_assoc|].
          rewrite Hg in A11. eapply ab_reply with (n := k_guid s); eauto. apply header_with_make. }
        destruct He as [[-> [Hd|[Hd Hd2]]]|(Hx & w' & Hd & Hw')]; change (k_shell s1) with q in Hd.
        * left. split; auto. left. cbn [List.map app]. now rewrite Q, Hd.
        * left. split; auto. right. cbn [List.map app]. now rewrite Q, Hd.
        * right. split; auto. exists w'. cbn [List.map app]. now rewrite Q, Hd.
      + exists [], [], s1, x. split; [now destruct x|].
        split; [destruct Hs1 as [->| ->]; constructor; auto; try (now rewrite app_nil_r); constructor; cbn; lia|].
        right. split; auto. exists w. rewrite Q. cbn [List.map app]. split; auto. destruct Hs1 as [->| ->]; reflexivity.
    - exists [], [], (set_shell q s), (Ok tt). split; [reflexivity|]. split; [constructor; auto; [now rewrite app_nil_r | constructor; cbn; lia]|].
      left. split; auto. left. rewrite Q. reflexivity.
  Qed.
  Lemma run_abort_queue s :
    exists ws evs s' x, run (abort_queue E) s = (s', x) /\ aframe ws evs s s' /\ abort_end ws s s' x.
  Proof.
    unfold abort_queue. rewrite run_bind, run_kdo. cbn [kstep fst snd]. apply run_abort_loop. lia.
  Qed.
End Abort.

(** ** Executions *)
Section Execute.
  Context {U : Type} (E : env U) (raw : string -> Prop).
  Implicit Types (s : kstate U).

  (** The execution proper, once the fields are read: src/xkernel_core.cpp:262-280. *)
  Definition exec_body (p : xparams) (c : channel) : kprog U unit :=
    metadata <-- get_metadata E ;;
    reply <-- interp_execute E (x_code p) (x_silent p) (stores p) (x_ue p) (x_stdin p) ;;
    status <-- of_res (value_string "status" "error" reply) ;;
    send_reply E "execute_reply" metadata reply c ;;;
    (if negb (x_silent p) && stores p then
       h <-- kdo KHistory ;;
       kdo (KSetHistory (store_inputs 0 (x_count p) (x_code p) "" h))
     else Ret tt) ;;;
    (if negb (x_silent p) && String.eqb status "error" && x_stop p then abort_queue E else Ret tt).
  Lemma execute_params m c p s : exec_params (m_content (m_base m)) p ->
    run (execute_request E m c) s = run (catch_std (exec_body p c) (Ret tt)) s.
  Proof.
    intros (mm & Hc & H1 & H2 & H3 & H4 & H5 & H6 & H7). unfold execute_request. rewrite !run_catch, Hc. cbv zeta.
    apply str_field_value in H1. apply bool_field_value in H2, H3, H6, H7. apply num_field_value in H4. apply any_field_value in H5.
    unfold empty. rewrite H1, H2, H3, H4, H5, H6, H7. reflexivity.
  Qed.
  Lemma execute_ill_formed m c s : (forall p, ~ exec_params (m_content (m_base m)) p) ->
    run (execute_request E m c) s = (s, Ok tt) \/ exists w, run (execute_request E m c) s = (s, UB w).
  Proof.
    intros Hno. unfold execute_request. rewrite run_catch. cbv zeta. set (ct := m_content (m_base m)) in *.
    rewrite run_bind, run_res. destruct (value_string_cases "code" "" ct) as [[v1 H1]|[e ->]]; [rewrite H1|now left].
    rewrite run_bind, run_res. destruct (value_bool_cases "silent" false ct) as [[v2 H2]|[e ->]]; [rewrite H2|now left].
    rewrite run_bind, run_res. destruct (value_bool_cases "store_history" true ct) as [[v3 H3]|[e ->]]; [rewrite H3|now left].
    rewrite run_bind, run_res. destruct (value_int_cases "execution_count" 1%Z ct) as [[v4 H4]|[[e ->]|[w ->]]]; [rewrite H4|now left|right; eexists; reflexivity].
    rewrite run_bind, run_res. destruct ct as [| | | | | | mm] eqn:Hct; try discriminate H1.
    destruct (value_json "user_expressions" empty (JObj mm)) as [v5|e|w] eqn:H5.
    2,3: unfold value_json, jvalue in H5; destruct (mfind "user_expressions" mm); discriminate.
    rewrite run_bind, run_res. destruct (value_bool_cases "allow_stdin" true (JObj mm)) as [[v6 H6]|[e ->]]; [rewrite H6|now left].
    rewrite run_bind, run_res. destruct (value_bool_cases "stop_on_error" false (JObj mm)) as [[v7 H7]|[e ->]]; [rewrite H7|now left].
    exfalso. apply (Hno {| x_code := v1; x_silent := v2; x_store := v3; x_count := v4; x_ue := v5; x_stdin := v6; x_stop := v7 |}).
    exists mm. cbn [x_code x_silent x_store x_count x_ue x_stdin x_stop].
    apply str_field_value in H1. apply bool_field_value in H2, H3, H6, H7. apply num_field_value in H4. apply any_field_value in H5. auto 10.
  Qed.

  (** *** What the interpreter sees *)
  Definition exec_count (p : xparams) s : Z := if x_silent p then k_count s else (k_count s + 1)%Z.
  Definition exec_request (p : xparams) s : request :=
    RExecute (exec_count p s) (x_code p) (x_silent p) (stores p) (x_ue p) (x_stdin p).
  (** The execute_input publication. *)
  Definition exec_input s (p : xparams) : xpub :=
    pub_msg E s "execute_input" empty (jobj [("code", JStr (x_code p)); ("execution_count", JInt (exec_count p s))]) [] SHELL.
  (** The state at which the interpreter is called. *)
  Inductive exec_started (p : xparams) s : kstate U -> Prop :=
  | es_silent : x_silent p = true -> exec_started p s (set_clock (S (k_clock s)) s)
  | es_visible w :
      x_silent p = false -> k_count s <> int_max ->
      let s1 := set_clock (S (k_clock s)) s in
      pub_serialize (e_crypto E) (e_auth E) (e_eh E) (pub_msg E s1 "execute_input" empty (jobj [("code", JStr (x_code p)); ("execution_count", JInt (k_count s + 1))]) [] SHELL) = Ok w ->
      exec_started p s
        (add_event (EPublish SHELL (pub_msg E s1 "execute_input" empty (jobj [("code", JStr (x_code p)); ("execution_count", JInt (k_count s + 1))]) [] SHELL) w)
           (tick (set_count (k_count s + 1) s1))).
  (** The execution did not start. *)
  Inductive exec_failed (p : xparams) s : kstate U -> Prop :=
  | ef_overflow : x_silent p = false -> k_count s = int_max -> exec_failed p s (set_clock (S (k_clock s)) s)
  | ef_publish : x_silent p = false -> k_count s <> int_max -> exec_failed p s (tick (set_count (k_count s + 1) (set_clock (S (k_clock s)) s))).
  Definition exec_metadata s : json := jobj [("started", JStr (e_now E (k_clock s)))].
  Definition exec_stored (p : xparams) s : kstate U :=
    if stores p then set_history (store_inputs 0 (x_count p) (x_code p) "" (k_history s)) s else s.

  (** The interpreter's virtual function, called at [s2]. *)
  Definition exec_call (p : xparams) s s2 : kstate U * res json :=
    run (embed E (e_interp E (exec_request p s))) (add_event (EInterp (exec_request p s)) s2).

  (** All ends of an execution. *)
  Inductive exec_end (p : xparams) (c : channel) s : kstate U -> res unit -> Prop :=
  | xe_failed s' r : exec_failed p s s' -> is_ok r = false -> (quiet E -> env_utf8 E -> utf8_json (k_phdr s SHELL) -> utf8_text (x_code p) -> k_count s = int_max /\ is_ub r = true) -> exec_end p c s s' r
  | xe_threw s2 s3 e : exec_started p s s2 -> exec_call p s s2 = (s3, Exn e) -> exec_end p c s s3 (Exn e)
  | xe_ub s2 s3 w : exec_started p s s2 -> exec_call p s s2 = (s3, UB w) -> exec_end p c s s3 (UB w)
  | xe_bad s2 s3 j w : exec_started p s s2 -> exec_call p s s2 = (s3, Ok j) ->
      (forall st, jfield "status" j = Some (JStr st) -> False) ->
      exec_end p c s s3 (Exn (Std w))
  | xe_unsent s2 s3 j j' r : exec_started p s s2 -> exec_call p s s2 = (s3, Ok j) ->
      jset "execution_count" (JInt (exec_count p s)) j = Ok j' ->
      run (send_reply E "execute_reply" (exec_metadata s) j' c) s3 = (tick s3, r) -> is_ok r = false ->
      exec_end p c s (tick s3) r
  | xe_done s2 s3 s4 j j' st : exec_started p s s2 -> exec_call p s s2 = (s3, Ok j) ->
      jset "execution_count" (JInt (exec_count p s)) j = Ok j' -> str_field (match j' with JObj m => m | _ => [] end) "status" "error" st ->
      replied E c "execute_reply" (exec_metadata s) j' s3 s4 ->
      x_silent p = true \/ st <> "error" \/ x_stop p = false ->
      exec_end p c s (exec_stored p s4) (Ok tt)
  | xe_abort s2 s3 s4 j j' s' r : exec_started p s s2 -> exec_call p s s2 = (s3, Ok j) ->
      jset "execution_count" (JInt (exec_count p s)) j = Ok j' -> str_field (match j' with JObj m => m | _ => [] end) "status" "error" "error" ->
      replied E c "execute_reply" (exec_metadata s) j' s3 s4 ->
      x_silent p = false -> x_stop p = true ->
      run (abort_queue E) (exec_stored p s4) = (s', r) -> exec_end p c s s' r.

  Lemma stores_negb p : negb (x_silent p) && stores p = stores p.
  Proof. unfold stores. destruct (x_silent p), (x_store p); reflexivity. Qed.

  Context (HU : user_publishes E raw).

  (** The part of [exec_body] that follows the call of the interpreter. *)
  Lemma exec_after p c s s2 s' r :
    exec_started p s s2 ->
    run (reply <-- (n <-- kdo KCount ;;
                    reply <-- interp E (RExecute n (x_code p) (x_silent p) (stores p) (x_ue p) (x_stdin p)) ;;
                    n <-- kdo KCount ;; of_res (jset "execution_count" (JInt n) reply)) ;;
         status <-- of_res (value_string "status" "error" reply) ;;
         send_reply E "execute_reply" (exec_metadata s) reply c ;;;
         (if negb (x_silent p) && stores p then
            h <-- kdo KHistory ;; kdo (KSetHistory (store_inputs 0 (x_count p) (x_code p) "" h)) else Ret tt) ;;;
         (if negb (x_silent p) && String.eqb status "error" && x_stop p then abort_queue E else Ret tt)) s2 = (s', r) ->
    exec_end p c s s' r.
  Proof.
    intros Hst. rewrite run_bind, run_bind, run_kdo. cbn [kstep fst snd].
    assert (Hcount : k_count s2 = exec_count p s) by (unfold exec_count; destruct Hst as [->|w -> ?]; reflexivity).
    rewrite run_bind. unfold interp. rewrite run_bind. rewrite run_emit. rewrite Hcount.
    fold (exec_request p s). fold (exec_call p s s2).
    destruct (exec_call p s s2) as [s3 [j|e|w]] eqn:Hcall.
    2: { intros [= <- <-]. eapply xe_threw; eauto. }
    2: { intros [= <- <-]. eapply xe_ub; eauto. }
    assert (Hf : uframe E raw (add_event (EInterp (exec_request p s)) s2) s3).
    { assert (X : keeps (uframe E raw) (embed E (e_interp E (exec_request p s)))) by (apply frame_embed; apply HU).
      specialize (X (add_event (EInterp (exec_request p s)) s2)). unfold exec_call in Hcall. now rewrite Hcall in X. }
    assert (Hc3 : k_count s3 = exec_count p s) by (rewrite (uf_count _ _ _ _ Hf); exact Hcount).
    rewrite run_bind, run_kdo. cbn [kstep fst snd]. rewrite Hc3, run_res.
    destruct (jset "execution_count" (JInt (exec_count p s)) j) as [j'|e|w] eqn:Hj.
    2: { intros [= <- <-]. destruct j; try discriminate; injection Hj as <-; (eapply xe_bad; eauto; intros st; discriminate). }
    2: { destruct j; discriminate. }
    rewrite run_bind, run_res.
    assert (Hobj : exists mm, j' = JObj mm) by (destruct j; try discriminate; injection Hj as <-; eauto).
    destruct Hobj as [mm ->].
    destruct (value_string_cases "status" "error" (JObj mm)) as [[st Hs]|[w Hs]]; rewrite Hs.
    2: { intros [= <- <-]. eapply xe_bad; eauto. intros st Hst'. destruct j as [| | | | | | m0]; try discriminate. cbn in Hst'. injection Hj as <-.
         unfold value_string, jvalue in Hs. rewrite mfind_mset_other, Hst' in Hs by discriminate. discriminate. }
    rewrite run_bind. apply str_field_value in Hs.
    destruct (run_send_reply E "execute_reply" (exec_metadata s) (JObj mm) c s3) as [(s4 & -> & Hr)|(x & Hr & Hx)].
    2: { rewrite Hr. intros H. assert (s' = tick s3 /\ r = x) as [-> ->] by (destruct x; [discriminate| |]; injection H; auto).
         eapply xe_unsent; eauto. }
    rewrite stores_negb. intros H.
    assert (H' : run (if negb (x_silent p) && String.eqb st "error" && x_stop p then abort_queue E else Ret tt) (exec_stored p s4) = (s', r)).
    { unfold exec_stored. destruct (stores p); exact H. }
    clear H. revert H'.
    destruct (x_silent p) eqn:Esil; cbn [negb andb].
    { intros [= <- <-]. eapply xe_done; eauto. }
    destruct (String.eqb_spec st "error") as [->|n]; cbn [andb].
    2: { intros [= <- <-]. eapply xe_done; eauto. }
    destruct (x_stop p) eqn:Estop.
    - intros H. eapply xe_abort; eauto.
    - intros [= <- <-]. eapply xe_done; eauto.
  Qed.
  Lemma run_exec_body p c s : let x := run (exec_body p c) s in exec_end p c s (fst x) (snd x).
  Proof.
    cbv zeta. destruct (run (exec_body p c) s) as [s' r] eqn:H. cbn [fst snd]. revert H.
    unfold exec_body. rewrite run_bind. unfold get_metadata. rewrite run_bind. unfold now. rewrite run_bind, run_kdo. cbn [kstep fst snd].
    rewrite !run_ret. fold (exec_metadata s). unfold interp_execute. intros H.
    destruct (x_silent p) eqn:Esil.
    - eapply exec_after; [now apply es_silent|]. rewrite Esil. exact H.
    - rewrite run_bind in H. rewrite run_bind in H. rewrite run_bind, run_kdo in H. cbn [kstep fst snd] in H.
      change (k_count (set_clock (S (k_clock s)) s)) with (k_count s) in H.
      destruct (Z.eqb_spec (k_count s) int_max) as [Hm|Hm].
      + injection H as <- <-. apply xe_failed; auto. now apply ef_overflow.
      + rewrite run_bind, run_kdo in H. cbn [kstep fst snd] in H. unfold publish_execution_input in H. rewrite run_publish in H. cbv zeta in H.
        set (s1 := set_clock (S (k_clock s)) s) in *.
        set (pm := pub_msg E (set_count (k_count s + 1) s1) "execute_input" empty (jobj [("code", JStr (x_code p)); ("execution_count", JInt (k_count s + 1))]) [] SHELL) in *.
        destruct (e_logger E (LIopub pm)) as [u|e|w] eqn:Hl.
        * destruct (pub_serialize (e_crypto E) (e_auth E) (e_eh E) pm) as [w|e|w] eqn:Hw.
          -- eapply exec_after; [eapply es_visible with (w := w); eauto|]. rewrite Esil. rewrite run_bind. exact H.
          -- injection H as <- <-. apply xe_failed; auto; [now apply ef_publish|]. intros _ Hu Hph Hcode. exfalso.
             destruct (pub_serialize_valid (e_crypto E) (e_auth E) (e_eh E) pm) as [w Hok]; [|congruence].
             destruct Hu as (U1 & U2 & U3 & U4). unfold base_parts, pm. cbn [pub_msg m_pbase m_header m_parent_header m_metadata m_content].
             repeat apply Forall_cons; auto using utf8_empty.
             ++ unfold hdr. apply utf8_header; auto. apply utf8_lit; reflexivity.
             ++ apply utf8_obj. repeat constructor; cbn [fst snd]; auto using utf8_str; try (apply utf8_lit; reflexivity).
                apply jvalid_utf8. reflexivity.
          -- destruct (pub_serialize_cases (e_crypto E) (e_auth E) (e_eh E) pm) as [[f Hf]|Hf]; congruence.
        * injection H as <- <-. apply xe_failed; auto; [now apply ef_publish|]. intros Hq. rewrite Hq in Hl. discriminate.
        * injection H as <- <-. apply xe_failed; auto; [now apply ef_publish|]. intros Hq. rewrite Hq in Hl. discriminate.
  Qed.
End Execute.
