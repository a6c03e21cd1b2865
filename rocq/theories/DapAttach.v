(** The handshake on an attach request. *)
From Verif Require Import Base BaseFacts Json JsonText JsonTextProofs JsonParseProofs Utf8 Auth Message MessageProofs Dap DapSpec DapProofs DapQueue DapMain.

Section Cond.
  Context (type key value : string) (Hk : (type = "event" /\ key = "event") \/ (type = "response" /\ key = "command")).
  Lemma protocol_defined raw : protocol_message raw -> defined parse (is_message type key value) raw.
  Proof.
    intros (j & P & T & Ev & Re). unfold defined, meets, fails. unfold is_message.
    destruct j as [| | | | | |m]; cbn in T; try contradiction. cbn [jfield] in *. 
    destruct (mfind "type" m) as [t|] eqn:Et; [|contradiction].
    destruct (json_eqb t (JStr type)) eqn:B.
    - apply json_eqb_str in B. subst t.
      assert (K : mfind key m <> None) by (destruct Hk as [[-> ->]|[-> ->]]; auto).
      destruct (mfind key m) as [v|] eqn:Ek; [|contradiction].
      destruct (json_eqb v (JStr value)) eqn:V; [left|right]; exists (JObj m); (split; [exact P|]); cbn [jget]; rewrite Et; cbn [bind]; rewrite (proj2 (json_eqb_str _ _) eq_refl), Ek; cbn [bind]; now rewrite V.
    - right. exists (JObj m). split; [exact P|]. cbn [jget]. rewrite Et. cbn [bind]. now rewrite B.
  Qed.
  Lemma meets_named raw j : meets parse (is_message type key value) raw j <-> parse raw = Ok j /\ named type key value j.
  Proof.
    unfold meets, is_message, named. split.
    - intros [P C]. split; auto. destruct j as [| | | | | |m]; cbn in C; try discriminate. cbn.
      destruct (mfind "type" m) as [t|]; [|discriminate]. cbn [bind] in C. destruct (json_eqb t (JStr type)) eqn:B; [|discriminate]. apply json_eqb_str in B. subst.
      destruct (mfind key m) as [v|]; [|discriminate]. cbn in C. injection C as C. apply json_eqb_str in C. now subst.
    - intros [P [T K]]. split; auto. destruct j as [| | | | | |m]; cbn in T, K; try discriminate. cbn. rewrite T. cbn. rewrite String.eqb_refl, K. cbn. now rewrite String.eqb_refl.
  Qed.

  Lemma at_most_one_incl {A} (P Q : A -> Prop) l : (forall x, Q x -> P x) -> at_most_one P l -> at_most_one Q l.
  Proof. intros H A1 a x b y d E Hx Hy. eapply A1; eauto. Qed.
  Lemma at_most_one_r {A} (P : A -> Prop) q l : at_most_one P (q ++ l) -> at_most_one P l.
  Proof. intros H a x b y d ->. apply (H (q ++ a)%list x b y d). now rewrite <- app_assoc. Qed.
  Lemma at_most_eq {A} (P : A -> Prop) l x y : at_most_one P l -> In x l -> In y l -> P x -> P y -> x = y.
  Proof.
    intros H Hx Hy Px Py. apply in_split in Hx as (a & b & ->). apply in_app_iff in Hy as [Hy|[Hy|Hy]]; auto; exfalso; apply in_split in Hy as (u & v & ->).
    - apply (H u y v x b); auto. now rewrite <- app_assoc.
    - exact (H a x u y v eq_refl Px Py).
  Qed.
  Lemma without_in {A} (x : A) l l' : without x l l' -> In x l.
  Proof. intros (a & b & -> & _). apply in_elt. Qed.

  (** Waiting for the only message of that name. *)
  Lemma wait_the c bodies raw j : dap_stream bodies (sconcat (c_net c)) -> Forall protocol_message (c_queue c ++ bodies) -> c_stopped c = [] ->
    the_message type key value raw j (c_queue c ++ bodies) ->
    exists c' b2, wait_for_message (is_message type key value) c = (c', Done j) /\ same_rest c c' /\ c_stopped c' = [] /\
      dap_stream b2 (sconcat (c_net c')) /\ without raw (c_queue c ++ bodies) (c_queue c' ++ b2).
  Proof.
    intros Hs Hp Hst (P & Nm & Hin & Hone). rewrite <- (sapp_nil_r (sconcat (c_net c))) in Hs.
    assert (Hd : Forall (defined parse (is_message type key value)) (c_queue c ++ bodies)) by (eapply Forall_impl; [|exact Hp]; apply protocol_defined).
    apply Forall_app in Hd as [Hd1 Hd2].
    assert (A1 : at_most_one (fun r => exists i, meets parse (is_message type key value) r i) (c_queue c ++ bodies)).
    { eapply at_most_one_incl; [|exact Hone]. cbn. intros r (i & M). exists i. now apply meets_named. }
    destruct (wait_keeps (is_message type key value) c bodies "" Hs Hd1 Hd2 Hst (at_most_one_r _ _ _ A1)) as (c' & o & E & S & O).
    destruct O as [[_ F]|(j' & raw' & b1 & b2 & -> & M & -> & W & S' & D)].
    - exfalso. specialize (F eq_refl). rewrite Forall_forall in F. apply F in Hin. eapply fails_meets; eauto. apply meets_named. split; eauto.
    - assert (raw' = raw).
      { apply (at_most_eq _ _ _ _ Hone); auto; [|apply meets_named in M; eauto|eauto]. apply without_in in W. rewrite app_assoc. apply in_app_iff. auto. }
      subst raw'. assert (j' = j) by (destruct M; congruence). subst j'. rewrite sapp_nil_r in D. exists c', b2. repeat (split; auto).
      rewrite app_assoc. now apply without_app_r.
  Qed.
End Cond.

Lemma protocol_without raw l l' : without raw l l' -> Forall protocol_message l -> Forall protocol_message l'.
Proof. intros (a & b & -> & ->) H. apply Forall_app in H as [H1 H2]. inversion H2; subst. now apply Forall_app. Qed.
Lemma named_other t k v raw j raw' j' k' v' t' l l' : without raw l l' -> the_message t k v raw j l -> (forall i, named t k v i -> named t' k' v' i -> False) ->
  the_message t' k' v' raw' j' l -> the_message t' k' v' raw' j' l'.
Proof.
  intros (a & b & -> & ->) (P & N & _ & _) D (P' & N' & I' & A'). split; auto. split; auto. split.
  - apply in_app_iff in I' as [I'|[<-|I']]; apply in_app_iff; auto. exfalso. assert (j' = j) by congruence. subst. eauto.
  - intros u x v0 y d E Hx Hy.
    (* an occurrence split of a ++ b lifts to a ++ raw :: b *)
    assert (L : exists u' v' d', (a ++ raw :: b)%list = (u' ++ x :: v' ++ y :: d')%list).
    { clear - E. revert u E. induction a as [|z a IH]; intros u E; cbn in *.
      - exists (raw :: u), v0, d. now rewrite E.
      - destruct u as [|z' u]; cbn in E; injection E as -> E.
        + exists []. cbn. clear IH. revert v0 E. induction a as [|z1 a IH]; intros v0 E; cbn in *.
          * exists (raw :: v0), d. now rewrite E.
          * destruct v0 as [|z2 v0]; cbn in E; injection E as -> E.
            -- exists [], (a ++ raw :: b)%list. reflexivity.
            -- destruct (IH v0 E) as (v1 & d1 & IH'). injection IH' as IH'. exists (z2 :: v1), d1. cbn. now rewrite IH'.
        + destruct (IH u E) as (u1 & v1 & d1 & IH'). exists (z' :: u1), v1, d1. cbn. now rewrite IH'. }
    destruct L as (u' & v1 & d' & L). exact (A' u' x v1 y d' L Hx Hy).
Qed.

Lemma frame_sep content : exists p, sfind SEPARATOR (dap_frame content) 0 = Some p /\
  substr (dap_frame content) (p + SEPARATOR_LENGTH) (slen (dap_frame content)) = Ok content.
Proof.
  set (d := HEADER +++ dec_of_nat (slen content)).
  assert (Hd : no_cr d). { unfold no_cr, d. rewrite sall_app. apply andb_true_iff. split; [reflexivity|]. apply digits_no_cr. apply dec_of_N_digits. }
  assert (Ef : dap_frame content = d +++ SEPARATOR +++ content) by (unfold dap_frame, d; now rewrite sapp_assoc).
  exists (slen d). rewrite Ef. split.
  - unfold sfind. rewrite sdrop_0. cbn [Nat.leb]. pose proof (sep_mid [] d content Hd (Forall_nil _)) as H. unfold cr_fields in H. cbn [map sconcat] in H. rewrite !sapp_nil_r in H. now rewrite H.
  - unfold substr. destruct (Nat.leb_spec (slen d + SEPARATOR_LENGTH) (slen (d +++ SEPARATOR +++ content))) as [L|L]; [|rewrite !slen_app in L; unfold SEPARATOR_LENGTH in L; change (slen SEPARATOR) with 4 in L; lia].
    f_equal. rewrite sdrop_add. rewrite sdrop_app by reflexivity. rewrite sdrop_app by reflexivity. apply stake_all. rewrite !slen_app. lia.
Qed.

Section Attach.
  Context (E : dapenv).
  Lemma set_net_rest c c' : same_rest c c' -> c_parent c' = c_parent c /\ c_owed c' = c_owed c /\ c_log c' = c_log c /\ c_ctl c' = c_ctl c /\ c_hdr c' = c_hdr c /\ c_ids c' = c_ids c /\ c_stop c' = c_stop c.
  Proof. intros (A1 & A2 & A3 & A4 & A5 & A6 & A7 & A8). auto 10. Qed.

  Definition event_of (n : nat) (parent j : json) : xpub :=
    {| m_topic := "debug_event"; m_pbase := {| m_header := make_header (dp_guid E n) (dp_date E n) "debug_event" (dp_user E) (dp_session E);
       m_parent_header := parent; m_metadata := JObj []; m_content := j; m_buffers := [] |} |}.
  Lemma forward_ok j c parent : json_ok j = true -> json_ok (make_header (dp_guid E (c_ids c)) (dp_date E (c_ids c)) "debug_event" (dp_user E) (dp_session E)) = true ->
    parent_of (c_parent c) parent -> (forall l, dp_callback E l j = Ok tt) ->
    exists w, pub_serialize (dp_crypto E) (dp_auth E) EStrict (event_of (c_ids c) parent j) = Ok w /\
      forward_event E j c = (log (APublish w) (set_ids (S (c_ids c)) (log (ACallback j) c)), Done tt).
  Proof.
    intros Hj Hh Hp Hc. unfold forward_event, dbind, dlift, dmod. rewrite Hc. cbn [io_of c_parent c_ids log set_ids].
    assert (Ep : (if String.eqb (c_parent c) "" then Done (JObj []) else io_of (parse (c_parent c))) = Done parent).
    { destruct Hp as [[-> ->]|[N P]]; [reflexivity|]. apply String.eqb_neq in N. now rewrite N, P. }
    rewrite Ep. fold (event_of (c_ids c) parent j).
    assert (Po : json_ok parent = true). { destruct Hp as [[_ ->]|[_ P]]; [reflexivity|]. eapply parse_json_ok; eauto. }
    destruct (round_trip_pub (dp_crypto E) (dp_auth E) EStrict (event_of (c_ids c) parent j)) as (w & W & _).
    { unfold base_ok_json. cbn [event_of m_pbase m_header m_parent_header m_metadata m_content]. now rewrite Hh, Po, Hj. }
    exists w. split; auto. rewrite W. reflexivity.
  Qed.

  Theorem attach_ok c m content req r bodies raw_i init raw_c confd raw_a resp n parent :
    c_attach c = true -> c_owed c = false -> c_ctl c = m :: r -> c_stopped c = [] ->
    m = dap_frame content -> parse content = Ok req -> jfield "command" req = Some (JStr "attach") ->
    dap_stream bodies (sconcat (c_net c)) -> Forall protocol_message (c_queue c ++ bodies) ->
    the_message "event" "event" "initialized" raw_i init (c_queue c ++ bodies) ->
    the_message "response" "command" "configurationDone" raw_c confd (c_queue c ++ bodies) ->
    the_message "response" "command" "attach" raw_a resp (c_queue c ++ bodies) ->
    jfield "seq" init = Some (JInt n) -> (int_min <= n < int_max)%Z ->
    parent_of (c_parent c) parent -> (forall l, dp_callback E l init = Ok tt) ->
    json_ok (make_header (dp_guid E (c_ids c)) (dp_date E (c_ids c)) "debug_event" (dp_user E) (dp_session E)) = true ->
    exists c' t_conf w t_resp b2 l1 l2,
      handle_control_socket E c = (c', Done tt) /\
      c_log c' = (c_log c ++ [AForward m; AAdapter (dap_frame t_conf); ACallback init; APublish w; AReply t_resp])%list /\
      parse t_conf = Ok (jobj [("type", JStr "request"); ("seq", JInt (n + 1)); ("command", JStr "configurationDone")]) /\
      pub_deserialize (dp_crypto E) (dp_auth E) w = Ok (event_of (c_ids c) parent init) /\
      parse t_resp = Ok resp /\
      c_attach c' = false /\ c_owed c' = false /\ c_ctl c' = r /\ c_stopped c' = [] /\
      dap_stream b2 (sconcat (c_net c')) /\
      without raw_i (c_queue c ++ bodies) l1 /\ without raw_c l1 l2 /\ without raw_a l2 (c_queue c' ++ b2).
  Proof.
    intros Ha Ho Hc Hst -> Pr Cm Hs Hp Hi Hcd Hat Hseq Hn Hpar Hcb Hh.
    unfold handle_control_socket. rewrite Hc. cbn [c_attach set_ctl]. rewrite Ha.
    assert (Sep : exists p, sfind SEPARATOR (dap_frame content) 0 = Some p /\ substr (dap_frame content) (p + SEPARATOR_LENGTH) (slen (dap_frame content)) = Ok content).
    { destruct (frame_sep content) as (p & F1 & F2). exists p. auto. }
    destruct Sep as (p & Sp & Su).
    unfold dbind at 1, dlift at 1. rewrite Sp, Su. cbn [io_of]. unfold dbind at 1, dlift at 1. rewrite Pr. cbn [io_of].
    unfold dbind at 1, dmod at 1. unfold dbind at 1, dlift at 1.
    assert (J : exists j', jget_mut "command" req = Ok (JStr "attach", j')).
    { destruct req; cbn in Cm; try discriminate. cbn. rewrite Cm. eauto. }
    destruct J as (j' & J). rewrite J. cbn [io_of]. rewrite (proj2 (json_eqb_str _ _) eq_refl).
    unfold dbind at 1. set (c1 := log (AForward (dap_frame content)) (set_ctl r true c)).
    (* initialized *)
    destruct (wait_the "event" "event" "initialized" (or_introl (conj eq_refl eq_refl)) c1 bodies raw_i init Hs Hp Hst Hi) as (c2 & b2 & W2 & R2 & S2 & D2 & X2).
    pose proof X2 as X2'. change (c_queue c1) with (c_queue c) in X2.
    assert (P2 : Forall protocol_message (c_queue c2 ++ b2)) by (eapply protocol_without; eauto).
    assert (Hcd2 : the_message "response" "command" "configurationDone" raw_c confd (c_queue c2 ++ b2)).
    { eapply named_other; [exact X2|exact Hi| |exact Hcd]. intros i [T _] [T' _]. congruence. }
    assert (Hat2 : the_message "response" "command" "attach" raw_a resp (c_queue c2 ++ b2)).
    { eapply named_other; [exact X2|exact Hi| |exact Hat]. intros i [T _] [T' _]. congruence. }
    unfold handle_init_sequence. unfold dbind at 1. rewrite W2.
    assert (Js : jget_mut "seq" init = Ok (JInt n, init)). { destruct init; cbn in Hseq; try discriminate. cbn. now rewrite Hseq. }
    unfold dbind at 1, dlift at 1. rewrite Js. cbn [io_of]. unfold dbind at 1, dlift at 1. cbn [get_int].
    assert (Wr : wrap32 n = n). { unfold wrap32, int_min, int_max in *. rewrite Z.mod_small; lia. }
    rewrite Wr. cbn [io_of]. unfold dbind at 1, dlift at 1. destruct (Z.ltb_spec n int_max); [|lia]. cbn [io_of].
    set (cd := jobj [("type", JStr "request"); ("seq", JInt (n + 1)); ("command", JStr "configurationDone")]).
    destruct (json_ok_dump EStrict cd) as (tc & Dc & Pc).
    { unfold json_ok. replace (jwf cd) with true; [reflexivity|]. symmetry.
      change (jwf cd) with (((- 2 ^ 63 <=? n + 1)%Z && (n + 1 <? 2 ^ 64)%Z) && true). unfold int_min, int_max in *. lia. }
    unfold dbind at 1. unfold send_dap_request. unfold dbind at 1, dlift at 1. rewrite Dc. cbn [io_of]. unfold dmod at 1.
    set (c3 := log (AAdapter (dap_frame tc)) c2).
    destruct (wait_the "response" "command" "configurationDone" (or_intror (conj eq_refl eq_refl)) c3 b2 raw_c confd D2 P2 S2 Hcd2) as (c4 & b4 & W4 & R4 & S4 & D4 & X4).
    unfold dbind at 1. rewrite W4.
    assert (P4 : Forall protocol_message (c_queue c4 ++ b4)) by (eapply protocol_without; eauto).
    assert (Hat4 : the_message "response" "command" "attach" raw_a resp (c_queue c4 ++ b4)).
    { eapply named_other; [exact X4|exact Hcd2| |exact Hat2]. intros i [_ T] [_ T']. congruence. }
    destruct (wait_the "response" "command" "attach" (or_intror (conj eq_refl eq_refl)) c4 b4 raw_a resp D4 P4 S4 Hat4) as (c5 & b5 & W5 & R5 & S5 & D5 & X5).
    unfold dbind at 1. rewrite W5.
    apply set_net_rest in R2, R4, R5. destruct R2 as (R21 & R22 & R23 & R24 & R25 & R26 & R27), R4 as (R41 & R42 & R43 & R44 & R45 & R46 & R47), R5 as (R51 & R52 & R53 & R54 & R55 & R56 & R57).
    assert (Ids : c_ids c5 = c_ids c) by (rewrite R56, R46; cbn; rewrite R26; reflexivity).
    assert (Par : c_parent c5 = c_parent c) by (rewrite R51, R41; cbn; rewrite R21; reflexivity).
    assert (Ow : c_owed c5 = true) by (rewrite R52, R42; cbn; rewrite R22; reflexivity).
    assert (Lg : c_log c5 = (c_log c ++ [AForward (dap_frame content); AAdapter (dap_frame tc)])%list) by (rewrite R53, R43; cbn; rewrite R23; cbn; now rewrite <- app_assoc).
    assert (Ct : c_ctl c5 = r) by (rewrite R54, R44; cbn; rewrite R24; reflexivity).
    assert (Io : json_ok init = true) by (destruct Hi as (Pi & _); eapply parse_json_ok; eauto).
    rewrite <- Par in Hpar. rewrite <- Ids in Hh.
    destruct (forward_ok init c5 parent Io Hh Hpar Hcb) as (w & Wp & Fw).
    unfold dbind at 1. rewrite Fw.
    assert (Ro : json_ok resp = true) by (destruct Hat as (Pa & _); eapply parse_json_ok; eauto).
    destruct (json_ok_dump EStrict resp Ro) as (tr & Dr & Prr).
    unfold dbind at 1, dlift at 1. rewrite Dr. cbn [io_of]. unfold reply. cbn [c_owed log set_ids]. rewrite Ow.
    eexists _, tc, w, tr, b5, (c_queue c2 ++ b2)%list, (c_queue c4 ++ b4)%list. split; [reflexivity|]. cbn.
    split. { rewrite Lg. now rewrite <- !app_assoc. }
    split; auto. split.
    { destruct (round_trip_pub (dp_crypto E) (dp_auth E) EStrict (event_of (c_ids c5) parent init)) as (w' & W' & Dw).
      - unfold base_ok_json. cbn [event_of m_pbase m_header m_parent_header m_metadata m_content]. rewrite Hh, Io. assert (Po : json_ok parent = true). { destruct Hpar as [[_ ->]|[_ Q]]; [reflexivity|]. eapply parse_json_ok; eauto. } now rewrite Po.
      - rewrite <- Ids. congruence. }
    repeat (split; auto).
  Qed.
End Attach.
