(** C01, C02: the frames of a message, in the terms of the protocol. *)
From Verif Require Import Base BaseFacts Json Utf8 JsonText Auth Message MessageProofs WireSpec WireLemmas.

(** C01. The frames are the identities, the delimiter "<IDS|MSG>", the signature, the texts of header, parent header, metadata and content, and the buffers. *)
Theorem C01_frames : forall c a h m w, serialize c a h m = Ok w ->
  exists th tp tm tc, dump h (m_header (m_base m)) = Ok th /\ dump h (m_parent_header (m_base m)) = Ok tp /\
    dump h (m_metadata (m_base m)) = Ok tm /\ dump h (m_content (m_base m)) = Ok tc /\
    w = (m_ids m ++ "<IDS|MSG>" :: sign c a th tp tm tc :: th :: tp :: tm :: tc :: m_buffers (m_base m))%list.
Proof.
  intros c a h m w H. destruct (serialize_shape c a h m w H) as (th & tp & tm & tc & H1 & H2 & H3 & H4 & ->).
  exists th, tp, tm, tc. repeat (split; auto).
Qed.
Print Assumptions C01_frames.
(** C01. Nothing else is accepted: the first frame "<IDS|MSG>" ends the identities. *)
Theorem C01_accepted : forall c a w m, deserialize c a w = Ok m ->
  exists sg th tp tm tc, w = (m_ids m ++ "<IDS|MSG>" :: sg :: th :: tp :: tm :: tc :: m_buffers (m_base m))%list /\ ~ In "<IDS|MSG>" (m_ids m) /\
    parse th = Ok (m_header (m_base m)) /\ parse tp = Ok (m_parent_header (m_base m)) /\ parse tm = Ok (m_metadata (m_base m)) /\ parse tc = Ok (m_content (m_base m)).
Proof.
  assert (T : forall w f ids i r, take_ids f w ids = Ok (i, r) -> exists l, i = (ids ++ l)%list /\ f :: w = (l ++ "<IDS|MSG>" :: r)%list /\ ~ In "<IDS|MSG>" l).
  { induction w as [|g w IH]; intros f ids i r H; cbn [take_ids] in H; [discriminate|]. unfold is_delimiter in H. destruct (String.eqb_spec f DELIMITER) as [->|N]; [cbn in H|replace (if negb (slen f =? slen DELIMITER) then false else false) with false in H by (now destruct (negb _)); cbn iota in H].
    - injection H as <- <-. exists []. rewrite app_nil_r. auto.
    - destruct (IH _ _ _ _ H) as (l & -> & E & N'). exists (f :: l). split; [now rewrite <- app_assoc|]. split; [cbn; now rewrite E|]. intros [->|Hl]; [now apply N|contradiction]. }
  intros c a w m H. unfold deserialize in H. destruct w as [|f w]; [discriminate|]. cbn [pop bind] in H.
  destruct (take_ids f w []) as [[ids r]| |] eqn:Et; try discriminate. destruct (T _ _ _ _ _ Et) as (l & -> & -> & N). cbn [app bind] in H.
  unfold base_deserialize in H. destruct r as [|sg [|th [|tp [|tm [|tc r]]]]]; try discriminate H. cbn [pop bind] in H.
  destruct (parse th) as [jh| |] eqn:Pth; try discriminate. destruct (parse tp) as [jp| |] eqn:Ptp; try discriminate. destruct (parse tm) as [jm| |] eqn:Ptm; try discriminate.
  destruct (parse tc) as [jc| |] eqn:Ptc; try discriminate. cbn [bind] in H. destruct (verify c a sg th tp tm tc) as [[|]| |]; try discriminate. injection H as <-.
  exists sg, th, tp, tm, tc. cbn [m_ids m_base m_header m_parent_header m_metadata m_content m_buffers].
  split; [reflexivity|]. split; [exact N|]. auto.
Qed.
Print Assumptions C01_accepted.
(** C02. The frames of a publication are the topic, the delimiter, and the same. *)
Theorem C02_frames : forall c a h m w, pub_serialize c a h m = Ok w ->
  exists th tp tm tc, dump h (m_header (m_pbase m)) = Ok th /\ dump h (m_parent_header (m_pbase m)) = Ok tp /\
    dump h (m_metadata (m_pbase m)) = Ok tm /\ dump h (m_content (m_pbase m)) = Ok tc /\
    w = (m_topic m :: "<IDS|MSG>" :: sign c a th tp tm tc :: th :: tp :: tm :: tc :: m_buffers (m_pbase m))%list.
Proof.
  intros c a h m w H. unfold pub_serialize, base_serialize in H.
  destruct (dump h (m_header (m_pbase m))) as [th| |] eqn:Dth; try discriminate. destruct (dump h (m_parent_header (m_pbase m))) as [tp| |] eqn:Dtp; try discriminate.
  destruct (dump h (m_metadata (m_pbase m))) as [tm| |] eqn:Dtm; try discriminate. destruct (dump h (m_content (m_pbase m))) as [tc| |] eqn:Dtc; try discriminate.
  injection H as <-. exists th, tp, tm, tc. repeat (split; auto).
Qed.
Print Assumptions C02_frames.
Example C01_frames_ex : exists w m, serialize toy toy_auth EStrict demo_msg = Ok w /\ deserialize toy toy_auth w = Ok m /\ In "<IDS|MSG>" w /\ m_ids m <> [].
Proof. eexists _, _. split; [vm_compute; reflexivity|]. split; [vm_compute; reflexivity|]. split; [vm_compute; tauto|discriminate]. Qed.
Example C02_frames_ex : exists w, pub_serialize toy toy_auth EStrict demo_pub = Ok w /\ nth_error w 1 = Some "<IDS|MSG>".
Proof. eexists. split; vm_compute; reflexivity. Qed.
