(** The default server answers every request of the shell socket. *)
From Verif Require Import Base BaseFacts Json JsonText Utf8 Utf8Proofs JsonTextProofs Auth Message MessageProofs WireSpec History HistoryProofs Comm Tree Kernel KernelSpec KernelProofs KernelRun KernelHandlers KernelExec KernelDispatch KernelLemmas KernelExecProps KernelReplies KernelSession
  Server ServerSpec ServerProofs SequentialSpec Sequential SequentialProofs AnsweredSpec.

(** ** Soundness of the states *)
Lemma ascii_utf8 s : sall (fun c => code c <? 128)%N s = true -> utf8_text s.
Proof.
  induction s as [|c s IH]; intros H.
  - exists []. split; constructor.
  - cbn in H. apply andb_true_iff in H as [H1 H2]. destruct (IH H2) as (cps & F & ->). apply N.ltb_lt in H1.
    exists (code c :: cps). split; [constructor; auto; left; lia|]. cbn [List.map sconcat].
    assert (utf8_encode (code c) = String c "") as ->; [|reflexivity].
    unfold utf8_encode. apply N.ltb_lt in H1. rewrite H1. f_equal. apply ascii_N_embedding.
Qed.
Lemma digits_ascii s : sall is_digit s = true -> sall (fun c => code c <? 128)%N s = true.
Proof.
  induction s as [|c s IH]; intros H; auto. cbn in *. apply andb_true_iff in H as [H1 H2]. rewrite IH by auto. unfold is_digit in H1.
  apply andb_true_iff in H1 as [_ H1]. apply N.leb_le in H1. rewrite andb_true_r. apply N.ltb_lt. lia.
Qed.
Lemma dec_utf8 z : utf8_text (dec_of_Z z).
Proof.
  apply ascii_utf8. rewrite dec_of_Z_cases. destruct (z <? 0)%Z; [cbn [append sall]; apply andb_true_iff; split; auto|]; apply digits_ascii, dec_of_N_digits.
Qed.
Lemma entry_ok p : utf8_text (x_code p) -> entry_utf8 (history_entry p).
Proof. intros H. repeat split; cbn; auto; [apply utf8_lit; reflexivity|apply dec_utf8|apply utf8_lit; reflexivity]. Qed.

Section Answered.
  Context {U : Type} (E : env U) (raw : string -> Prop) (Hs : e_split E = false).
  Context (Hq : quiet E) (Hu : env_utf8 E) (HU : user_publishes E raw).
  Implicit Types (k s : kstate U).
  Notation listener := (fun c w => dispatch E w c).

  Definition texts_ok s : Prop := parents_utf8 s /\ Forall entry_utf8 (k_history s).
  Lemma dispatch_sound w c s s' : run (dispatch E w c) s = (s', Ok tt) -> texts_ok s -> texts_ok s' /\ (k_count s' <= k_count s + 1)%Z.
  Proof.
    intros R [P H]. split; [split; [eapply dispatch_parents; eauto|]|]; destruct (classic_executes E w) as [[p Hx]|Hno].
    - destruct (step_execute E raw Hq Hu HU _ _ _ _ _ _ R eq_refl P Hx) as [_ [[_ ->]|[_ ->]]]; auto. apply Forall_app. split; auto. constructor; auto.
      apply entry_ok. destruct Hx as (m & Ha & _ & Hp). exact (params_code_utf8 _ _ (accepted_content_utf8 _ _ _ Ha) Hp).
    - destruct (dispatch_other E raw Hq Hu HU _ _ _ _ _ R Hno) as (_ & -> & _). auto.
    - destruct (step_execute E raw Hq Hu HU _ _ _ _ _ _ R eq_refl P Hx) as [-> _]. destruct (x_silent p); lia.
    - destruct (dispatch_other E raw Hq Hu HU _ _ _ _ _ R Hno) as (-> & _ & _). lia.
  Qed.

  (** ** One message *)
  Lemma no_underscore_request : no_underscore "request".
  Proof.
    intros a b H. assert (X : sall (fun c => negb (Ascii.eqb c "_")) (a +++ "_" +++ b) = true) by (rewrite <- H; reflexivity).
    rewrite sall_app in X. apply andb_true_iff in X as [_ X]. discriminate.
  Qed.
  Lemma well_formed_request s h ty ct P : well_formed E s h ty ct P -> exists x, ty = x +++ "_" +++ "request".
  Proof.
    destruct 1; [exists "execute"|exists "complete"|exists "inspect"|exists "is_complete"|exists "kernel_info"|exists "shutdown"|exists "interrupt"|exists "debug"|exists "history"|exists "comm_info"]; reflexivity.
  Qed.
  Lemma answerable_abortable w s : sound s -> answerable E w -> abortable E w.
  Proof.
    intros S (m & ty & Ha & Hty & W). destruct (W s S) as [P HP].
    apply well_formed_request in HP as [x ->]. right. exists m, x, "request". split; auto. split; auto. split; [apply no_underscore_request|]. cbn. lia.
  Qed.

  Lemma shell_sends_app a b : shell_sends (a ++ b) = (shell_sends a ++ shell_sends b)%list.
  Proof. apply filter_app. Qed.
  Lemma shell_sends_none l : Forall (fun e => ~ is_send e) l -> shell_sends l = [].
  Proof. induction 1 as [|e l H _ IH]; auto. cbn. destruct e; auto. destruct H. eexists _, _, _. reflexivity. Qed.
  Lemma aborts_all lo ws ab hi : aborts E lo ws ab hi -> Forall (answerable E) ws -> Forall2 (answers E) (List.map (pair SHELL) ws) (shell_sends ab).
  Proof.
    induction 1 as [lo hi|lo w ws evs hi Hr H IH|lo n w ws evs hi m ty rty r f Ha Hty Hab Hn Hh Hi Hp Hm Hc Hb Hf H IH]; intros F.
    - constructor.
    - inversion F as [|? ? (m & ty & Ha & _) _]; subst. destruct Hr as [e He]. unfold accepted in Ha. congruence.
    - inversion F; subst. cbn [shell_sends filter List.map]. constructor; auto.
      exists m, ty, r, f, (e_guid E n), rty. cbn [fst snd]. auto 12.
  Qed.
  (** All messages the handling took were aborted. *)
  Lemma taken_answered l ws : taken (List.map Some l) ws [] -> (forall x, List.map Some l = (List.map Some ws ++ [Some x])%list -> ~ abortable E x) ->
    Forall (abortable E) l -> l = ws.
  Proof.
    intros T N F. apply taken_all in T as [T|[x ->]]; auto. exfalso. apply (N x); [now rewrite map_app|]. apply Forall_app in F as [_ F]. now inversion F.
  Qed.
  Lemma episode_answered w c l k0 k1 : run (dispatch E w c) (set_shell (List.map Some l) k0) = (k1, Ok tt) -> k_shell k1 = [] ->
    sound k0 -> Forall (answerable E) (from_shell (c, w, l)) ->
    exists evs, k_trace k1 = (k_trace k0 ++ evs)%list /\ Forall2 (answers E) (List.map (pair SHELL) (from_shell (c, w, l))) (shell_sends evs).
  Proof.
    intros R Sh S F. set (s := set_shell (List.map Some l) k0) in *. assert (So : sound s) by exact S.
    assert (Fl : Forall (answerable E) l) by (destruct c; cbn in F; auto; now inversion F).
    assert (Al : Forall (abortable E) l) by (eapply Forall_impl; [|exact Fl]; intros; eapply answerable_abortable; eauto).
    assert (Nil : k1 = s -> l = []) by (intros ->; cbn in Sh; now destruct l).
    destruct (deserialize_cases E w) as [[m Ha]|[[e Hr]|Hub]].
    - destruct (value_string_cases "msg_type" "" (m_header (m_base m))) as [[ty Hty]|[e He]].
      + apply typed_value in Hty.
        destruct (dispatch_dispatched E raw Hq Hu HU w c m ty s k1 _ Ha Hty R) as (busy & mid & rep & ab & ws & tail & T & B & Wb & Fm & Rp & L & (lo & hi & AB) & W & TK & En & N & _ & _ & Ne).
        rewrite Sh in TK, Ne. apply taken_answered in TK; auto. subst ws.
        exists (busy :: mid ++ rep ++ ab ++ tail)%list. split; [exact T|].
        change (busy :: mid ++ rep ++ ab ++ tail)%list with ([busy] ++ mid ++ rep ++ ab ++ tail)%list.
        rewrite !shell_sends_app, (shell_sends_none [busy]), (shell_sends_none mid), (shell_sends_none tail), app_nil_r.
        2:{ destruct En as [(_ & idle & -> & Si & _)|[-> _]]; repeat constructor. eapply status_not_send; eauto. }
        2:{ eapply Forall_impl; [|exact Fm]. intros e He. eapply pre_not_send; eauto. }
        2:{ constructor; [eapply status_not_send; eauto|constructor]. }
        cbn [app]. apply aborts_all in AB; auto. destruct c; cbn [from_shell].
        * (* SHELL *)
          inversion F as [|? ? (m' & ty' & Ha' & Hty' & Hw) _]; subst. assert (m' = m) by (unfold accepted in *; congruence). subst m'.
          destruct (Hw s So) as [P HP]. destruct So as (Pu & _).
          destruct (dispatch_replies E raw Hq Hu HU w SHELL m ty' s P Ha Hty' Pu HP) as (s' & x & b2 & mid2 & r2 & f2 & ab2 & ws2 & tail2 & R2 & T2 & _ & _ & _ & _ & _ & (lo2 & hi2 & AB2) & _).
          rewrite R in R2. injection R2 as <- <-. destruct rep as [|e [|e' rep]]; [exfalso| |cbn in L; lia].
          -- destruct l as [|x l]; [|now destruct W].
             rewrite T in T2. apply app_inv_head in T2. apply (f_equal shell_sends) in T2. revert T2.
             change (busy :: mid ++ [] ++ ab ++ tail)%list with ([busy] ++ mid ++ ab ++ tail)%list.
             assert (Hab : shell_sends ab = []) by now inversion AB.
             rewrite !shell_sends_app, (shell_sends_none [busy]), (shell_sends_none mid), (shell_sends_none tail), Hab.
             ++ change (b2 :: mid2 ++ ESend SHELL r2 f2 :: ab2 ++ tail2)%list with ((b2 :: mid2) ++ ESend SHELL r2 f2 :: ab2 ++ tail2)%list.
                rewrite shell_sends_app. cbn. intros X. symmetry in X. apply app_eq_nil in X as [_ X]. discriminate.
             ++ destruct En as [(_ & idle & -> & Si & _)|[-> _]]; repeat constructor. eapply status_not_send; eauto.
             ++ eapply Forall_impl; [|exact Fm]. intros e He. eapply pre_not_send; eauto.
             ++ constructor; [eapply status_not_send; eauto|constructor].
          -- apply Forall_inv in Rp as [Wr (r & f & id & rty & -> & Hn & Hi & Hp & Hh & Hb)].
             cbn [shell_sends filter app List.map]. constructor; auto. exists m, ty, r, f, id, rty. cbn [fst snd]. auto 12.
        * (* CONTROL *)
          assert (shell_sends rep = []) as ->; [|exact AB].
          destruct rep as [|e [|e' rep]]; [reflexivity| |cbn in L; lia]. apply Forall_inv in Rp as [_ (r & f & id & rty & -> & _)]. reflexivity.
      + exfalso. assert (Hnt : forall ty, ~ typed (m_header (m_base m)) ty) by (intros ty Hty; apply typed_value in Hty; congruence).
        destruct (run_dispatch_untyped E w c m s Hq Hu Ha Hnt) as (fb & what & Hfb & HD). rewrite R in HD. discriminate.
    - pose proof (run_dispatch_rejected E w c s (ex_intro _ _ Hr)) as X. rewrite R in X. injection X as ->. rewrite (Nil eq_refl) in *.
      exists []. split; [now rewrite app_nil_r|]. destruct c; [|constructor].
      inversion F as [|? ? (m & ty & Ha & _) _]; subst. unfold accepted in Ha. congruence.
    - exfalso. unfold dispatch in R. rewrite run_bind, run_catch, run_bind, run_res in R.
      destruct (deserialize (e_crypto E) (e_auth E) w); try discriminate.
  Qed.

  (** ** The run *)
  Lemma served_answered es k k' : served E es k k' -> texts_ok k -> (k_count k + Z.of_nat (List.length es) <= int_max)%Z ->
    Forall (answerable E) (flat_map from_shell es) ->
    texts_ok k' /\ (k_count k' <= k_count k + Z.of_nat (List.length es))%Z /\
    exists evs, k_trace k' = (k_trace k ++ evs)%list /\ Forall2 (answers E) (List.map (pair SHELL) (flat_map from_shell es)) (shell_sends evs).
  Proof.
    induction 1 as [k|es c w l k k0 k1 H IH Hrun Hsh]; intros T C F.
    - split; auto. split; [cbn; lia|]. exists []. split; [now rewrite app_nil_r|constructor].
    - rewrite app_length in C. cbn [List.length] in C. rewrite flat_map_app in F. apply Forall_app in F as [F1 F2].
      destruct IH as (T1 & C1 & evs & Tr & A); auto; [lia|].
      destruct (dispatch_sound w c (set_shell (List.map Some l) k0) k1 Hrun T1) as [T2 C2]. cbn in C2.
      split; auto. split; [rewrite app_length; cbn [List.length]; lia|].
      cbn [flat_map] in F2. rewrite app_nil_r in F2.
      destruct (episode_answered w c l k0 k1 Hrun Hsh) as (evs' & Tr' & A'); auto; [destruct T1; repeat split; auto; lia|].
      exists (evs ++ evs')%list. rewrite Tr', Tr, app_assoc. split; auto. rewrite flat_map_app, map_app, shell_sends_app.
      apply Forall2_app; auto. cbn [flat_map]. now rewrite app_nil_r.
  Qed.
  Lemma shell_episodes ls es : episodes ls es -> shell_taken ls = flat_map from_shell es /\ List.length es <= List.length (received ls).
  Proof.
    assert (R : forall a b, received (a ++ b) = (received a ++ received b)%list) by (intros; unfold received; apply flat_map_app).
    assert (T : forall a b, shell_taken (a ++ b) = (shell_taken a ++ shell_taken b)%list) by (intros; unfold shell_taken; apply flat_map_app).
    induction 1 as [|ls es c w H [I1 I2]|ls es c w l x H [I1 I2]|ls es l H [I1 I2] N1 N2]; rewrite ?R, ?T, ?I1, ?app_length in *; cbn [List.length] in *.
    - auto.
    - split; [|cbn; lia]. rewrite flat_map_app. now destruct c.
    - split; [|cbn; lia]. rewrite !flat_map_app, <- app_assoc. cbn [flat_map]. rewrite !app_nil_r. now destruct c.
    - split; [|lia]. destruct l; cbn; rewrite ?app_nil_r; auto; [now destruct (N1 c w)|now destruct (N2 w)].
  Qed.
  Lemma server_answered k start ls sy : drun listener (d_init k start) ls sy -> place_of (d_pc sy) = Between ->
    texts_ok k -> (k_count k + Z.of_nat (List.length (received ls)) <= int_max)%Z -> Forall (answerable E) (shell_taken ls) ->
    Forall2 (answers E) (List.map (pair SHELL) (shell_taken ls)) (shell_sends (happened ls)).
  Proof.
    intros H Hp T C F. destruct (sequence E Hs k start ls sy H) as (es & He & Ht & Hpl). rewrite Hp in Hpl.
    apply shell_episodes in He as [He1 He2]. rewrite He1 in *.
    destruct (served_answered _ _ _ Hpl T) as (_ & _ & evs & Tr & A); auto; [change (k_count (bare k)) with (k_count k); lia|].
    cbn in Tr. rewrite Ht in Tr. apply app_inv_head in Tr. now subst.
  Qed.
End Answered.
