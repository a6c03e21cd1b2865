(** Proofs about hex encoding, signatures and the wire format. *)
From Verif Require Import Base BaseFacts Json Utf8 Utf8Proofs JsonText JsonTextProofs JsonParseProofs Hex Auth Message.

(** ** Hex *)
Definition hex_pair (b : ascii) : string := setw 2 (hex_put (code b)).
Definition hex_lower (c : ascii) : bool := (((48 <=? code c) && (code c <=? 57)) || ((97 <=? code c) && (code c <=? 102)))%N.
Lemma hex_pair_len b : slen (hex_pair b) = 2.
Proof.
  apply Nat.eqb_eq. apply (forall_bytes (fun b => slen (hex_pair b) =? 2)). vm_compute. reflexivity.
Qed.
Lemma hex_pair_lower b : sall hex_lower (hex_pair b) = true.
Proof. apply (forall_bytes (fun b => sall hex_lower (hex_pair b))). vm_compute. reflexivity. Qed.
Definition unhex_val (c : ascii) : N := (if code c <=? 57 then code c - 48 else code c - 87)%N.
Definition unhex_pair (s : string) : ascii :=
  match s with String a (String b "") => chr (16 * unhex_val a + unhex_val b) | _ => chr 0 end.
Lemma unhex_pair_ok b : unhex_pair (hex_pair b) = b.
Proof. apply Ascii.eqb_eq. apply (forall_bytes (fun b => Ascii.eqb (unhex_pair (hex_pair b)) b)). vm_compute. reflexivity. Qed.
Lemma hex_string_cons b s : hex_string (String b s) = hex_pair b +++ hex_string s.
Proof. reflexivity. Qed.
Lemma hex_string_len s : slen (hex_string s) = 2 * slen s.
Proof. induction s as [|b s IH]; [reflexivity|]. rewrite hex_string_cons, slen_app, hex_pair_len, IH. cbn. lia. Qed.
Lemma hex_string_lower s : sall hex_lower (hex_string s) = true.
Proof. induction s as [|b s IH]; [reflexivity|]. now rewrite hex_string_cons, sall_app, hex_pair_lower, IH. Qed.
Lemma hex_string_inj a b : hex_string a = hex_string b -> a = b.
Proof.
  revert b; induction a as [|x a IH]; intros [|y b] H; auto.
  - apply (f_equal slen) in H. rewrite !hex_string_len in H. discriminate.
  - apply (f_equal slen) in H. rewrite !hex_string_len in H. discriminate.
  - rewrite !hex_string_cons in H. apply sapp_inj_len in H as [H1 H2]; [|now rewrite !hex_pair_len].
    apply (f_equal unhex_pair) in H1. rewrite !unhex_pair_ok in H1. subst. f_equal. auto.
Qed.

(** ** Signatures *)
Lemma verify_sign c a h p m t : verify c a (sign c a h p m t) h p m t = Ok true.
Proof.
  destruct a as [|s k]; cbn [verify sign]; auto.
  destruct (Nat.ltb_spec (slen (hex_string (digest c s k h p m t))) (slen (hex_string (digest c s k h p m t)))); [lia|].
  rewrite <- (sapp_nil_r (hex_string _)) at 2. rewrite stake_app by auto. now rewrite String.eqb_refl.
Qed.
Lemma verify_true c s k sig h p m t :
  verify c (HmacAuth s k) sig h p m t = Ok true <-> exists tail, sig = hex_string (digest c s k h p m t) +++ tail.
Proof.
  cbn [verify]. set (x := hex_string _). destruct (Nat.ltb_spec (slen sig) (slen x)) as [Hl|Hl].
  - split; [discriminate|]. intros [tail ->]. rewrite slen_app in Hl. lia.
  - split.
    + intros [= H]. apply String.eqb_eq in H. exists (sdrop (slen x) sig). rewrite <- H at 1. now rewrite stake_sdrop.
    + intros [tail ->]. rewrite stake_app by auto. now rewrite String.eqb_refl.
Qed.
Lemma verify_ub c s k sig h p m t : crypto_ok c ->
  (is_ub (verify c (HmacAuth s k) sig h p m t) = true <-> slen sig < 2 * md_size c s).
Proof.
  intros Hc. cbn [verify]. rewrite hex_string_len. unfold digest. rewrite Hc.
  destruct (Nat.ltb_spec (slen sig) (2 * md_size c s)); cbn; split; auto; try discriminate; lia.
Qed.
Lemma verify_noexn c a sig h p m t e : verify c a sig h p m t <> Exn e.
Proof. destruct a as [|s k]; cbn [verify]; [discriminate|]. destruct (Nat.ltb _ _); discriminate. Qed.

(** ** Frames *)
Lemma is_delimiter_eq f : is_delimiter f = String.eqb f DELIMITER.
Proof.
  unfold is_delimiter. destruct (String.eqb_spec f DELIMITER) as [->|H]; [reflexivity|].
  destruct (negb _); reflexivity.
Qed.

Lemma base_unfold c a w :
  base_deserialize c a w =
  match w with
  | sg :: h :: p :: m :: t :: bufs =>
      let* jh := parse h in let* jp := parse p in let* jm := parse m in let* jc := parse t in
      let* ok := verify c a sg h p m t in
      if ok then Ok {| m_header := jh; m_parent_header := jp; m_metadata := jm; m_content := jc; m_buffers := bufs |}
      else Exn bad_signature
  | _ => UB "pop on an empty multipart"
  end.
Proof. destruct w as [|sg [|h [|p [|m [|t bufs]]]]]; reflexivity. Qed.

Lemma base_ok c a w b : base_deserialize c a w = Ok b <->
  exists sg h p m t, w = sg :: h :: p :: m :: t :: m_buffers b /\
    parse h = Ok (m_header b) /\ parse p = Ok (m_parent_header b) /\ parse m = Ok (m_metadata b) /\ parse t = Ok (m_content b) /\
    verify c a sg h p m t = Ok true.
Proof.
  rewrite base_unfold. split.
  - destruct w as [|sg [|h [|p [|m [|t bufs]]]]]; try discriminate. intros H.
    destruct (parse h) as [jh| |] eqn:Eh; try discriminate. destruct (parse p) as [jp| |] eqn:Ep; try discriminate.
    destruct (parse m) as [jm| |] eqn:Em; try discriminate. destruct (parse t) as [jt| |] eqn:Et; try discriminate.
    cbn [bind] in H. destruct (verify _ _ _ _ _ _ _) as [[]| |] eqn:Ev; try discriminate. cbn in H. injection H as <-. cbn.
    exists sg, h, p, m, t. auto 10.
  - intros (sg & h & p & m & t & -> & Eh & Ep & Em & Et & Ev). rewrite Eh, Ep, Em, Et. cbn [bind]. rewrite Ev. cbn. now destruct b.
Qed.

(** The identity loop splits at the first delimiter. *)
Lemma take_ids_spec f w ids : take_ids f w ids =
  match (fix split (acc : list string) (l : list string) : option (list string * frames) :=
     match l with
     | [] => None
     | x :: l' => if String.eqb x DELIMITER then Some (acc, l') else split (acc ++ [x]) l'
     end) ids (f :: w) with
  | Some (a, []) => Exn no_delimiter
  | Some (a, r) => Ok (a, r)
  | None => Exn no_delimiter
  end.
Proof.
  revert f ids; induction w as [|g w IH]; intros f ids.
  - cbn. now destruct (String.eqb f DELIMITER).
  - cbn [take_ids]. rewrite is_delimiter_eq. destruct (String.eqb f DELIMITER) eqn:E; [reflexivity|].
    rewrite IH. reflexivity.
Qed.
Lemma take_ids_ok f w ids a r : take_ids f w ids = Ok (a, r) <->
  exists pre, a = (ids ++ pre)%list /\ f :: w = (pre ++ DELIMITER :: r)%list /\ ~ In DELIMITER pre /\ r <> [].
Proof.
  revert f ids; induction w as [|g w IH]; intros f ids; cbn [take_ids].
  - split; [discriminate|]. intros (pre & -> & H & _ & Hr). exfalso.
    destruct pre as [|x [|]]; cbn in H; injection H as H1 H2; try congruence; discriminate.
  - rewrite is_delimiter_eq. destruct (String.eqb_spec f DELIMITER) as [->|Hf].
    + split.
      * intros [= <- <-]. exists []. rewrite app_nil_r. cbn. repeat split; auto; discriminate.
      * intros (pre & -> & H & Hn & Hr). destruct pre as [|x pre]; cbn in H.
        -- injection H as <-. now rewrite app_nil_r.
        -- injection H as <- H. exfalso. apply Hn. now left.
    + rewrite IH. split.
      * intros (pre & -> & H & Hn & Hr). exists (f :: pre). rewrite <- app_assoc. cbn. rewrite H. repeat split; auto.
        intros [Hx|Hx]; auto.
      * intros (pre & -> & H & Hn & Hr). destruct pre as [|x pre]; cbn in H; injection H as Hx H; [congruence|].
        subst x. exists pre. rewrite <- app_assoc. cbn. repeat split; auto. intros Hx. apply Hn. now right.
Qed.
Lemma take_ids_noub f w ids : is_ub (take_ids f w ids) = false.
Proof.
  revert f ids; induction w as [|g w IH]; intros f ids; cbn [take_ids]; auto. destruct (is_delimiter f); auto.
Qed.
Lemma take_ids_exn f w ids e : take_ids f w ids = Exn e -> e = no_delimiter.
Proof.
  revert f ids; induction w as [|g w IH]; intros f ids; cbn [take_ids]; [congruence|].
  destruct (is_delimiter f); [discriminate|apply IH].
Qed.

Lemma deserialize_ok c a w m : deserialize c a w = Ok m <->
  exists rest, w = (m_ids m ++ DELIMITER :: rest)%list /\ ~ In DELIMITER (m_ids m) /\ base_deserialize c a rest = Ok (m_base m).
Proof.
  unfold deserialize. destruct w as [|f w].
  - split; [discriminate|]. intros (r & H & _). destruct (m_ids m); discriminate.
  - cbn [pop bind]. split.
    + destruct (take_ids f w []) as [[ids r]| |] eqn:E; try discriminate. cbn [bind].
      apply take_ids_ok in E as (pre & -> & E & Hn & Hr). cbn [app].
      destruct (base_deserialize c a r) as [b| |] eqn:Eb; try discriminate. cbn. intros [= <-]. cbn. eauto.
    + intros (r & E & Hn & Hb). assert (take_ids f w [] = Ok (m_ids m, r)) as ->.
      { apply take_ids_ok. exists (m_ids m). repeat split; auto. intros ->. discriminate. }
      cbn [bind]. rewrite Hb. cbn. now destruct m.
Qed.

Lemma dump_ok h j t : dump h j = Ok t <-> dump_opt h j = Some t.
Proof. unfold dump. destruct (dump_opt h j); split; congruence. Qed.

(** Well-formed message content: objects sorted, integers in range, floats finite, strings
    valid UTF-8. *)
Definition json_ok (j : json) : bool := jwf j && jfinite j && jvalid j.
Definition base_ok_json (b : xbase) : bool :=
  json_ok (m_header b) && json_ok (m_parent_header b) && json_ok (m_metadata b) && json_ok (m_content b).
Lemma json_ok_spec j : json_ok j = true <-> jgood j = true /\ jvalid j = true.
Proof. unfold json_ok, jgood. apply andb_true_iff. Qed.
Lemma json_ok_dump h j : json_ok j = true -> exists t, dump h j = Ok t /\ parse t = Ok j.
Proof.
  rewrite json_ok_spec. intros [Hg Hv]. pose proof Hv as Hv'. apply dump_strict_some in Hv as [t Ht].
  apply (dump_handler h) in Ht. exists t. apply dump_ok in Ht. split; auto. eapply parse_dump; eauto.
Qed.
Lemma parse_json_ok s j : parse s = Ok j -> json_ok j = true.
Proof. intros H. apply json_ok_spec. now apply parse_good in H. Qed.

Lemma base_serialize_ok c a h b : base_ok_json b = true ->
  exists w, base_serialize c a h b = Ok w /\ base_deserialize c a w = Ok b.
Proof.
  unfold base_ok_json. rewrite !andb_true_iff. intros [[[H1 H2] H3] H4].
  destruct (json_ok_dump h _ H1) as (t1 & D1 & P1). destruct (json_ok_dump h _ H2) as (t2 & D2 & P2).
  destruct (json_ok_dump h _ H3) as (t3 & D3 & P3). destruct (json_ok_dump h _ H4) as (t4 & D4 & P4).
  unfold base_serialize. rewrite D1, D2, D3, D4. cbn [bind]. eexists; split; [reflexivity|].
  apply base_ok. exists (sign c a t1 t2 t3 t4), t1, t2, t3, t4. repeat split; auto. apply verify_sign.
Qed.

Lemma round_trip_msg c a h m : base_ok_json (m_base m) = true -> ~ In DELIMITER (m_ids m) ->
  exists w, serialize c a h m = Ok w /\ deserialize c a w = Ok m.
Proof.
  intros Hj Hd. destruct (base_serialize_ok c a h _ Hj) as (w & Hw & Hb).
  exists (m_ids m ++ DELIMITER :: w)%list. unfold serialize. rewrite Hw. split; auto.
  apply deserialize_ok. eauto.
Qed.
Lemma round_trip_pub c a h m : base_ok_json (m_pbase m) = true ->
  exists w, pub_serialize c a h m = Ok w /\ pub_deserialize c a w = Ok m.
Proof.
  intros Hj. destruct (base_serialize_ok c a h _ Hj) as (w & Hw & Hb).
  exists (m_topic m :: DELIMITER :: w)%list. unfold pub_serialize. rewrite Hw. split; auto.
  unfold pub_deserialize. cbn [pop bind]. rewrite Hb. now destruct m.
Qed.

(** Every accepted message has well-formed content. *)
Lemma base_deserialize_ok_json c a w b : base_deserialize c a w = Ok b -> base_ok_json b = true.
Proof.
  intros H. apply base_ok in H as (sg & h & p & m & t & _ & H1 & H2 & H3 & H4 & _).
  unfold base_ok_json. now rewrite (parse_json_ok _ _ H1), (parse_json_ok _ _ H2), (parse_json_ok _ _ H3), (parse_json_ok _ _ H4).
Qed.
Lemma deserialize_ok_json c a w m : deserialize c a w = Ok m -> base_ok_json (m_base m) = true /\ ~ In DELIMITER (m_ids m).
Proof.
  intros H. apply deserialize_ok in H as (r & _ & Hn & H). split; auto. eapply base_deserialize_ok_json; eauto.
Qed.

(** ** Undefined behaviour of deserialization *)
Lemma parse_noub s : is_ub (parse s) = false.
Proof. unfold parse. destruct (parse_opt s); reflexivity. Qed.
Lemma parse_exn s e : parse s = Exn e -> is_std e = true.
Proof. unfold parse. destruct (parse_opt s); [discriminate|]. now intros [= <-]. Qed.

Definition parses (s : string) : Prop := exists j, parse s = Ok j.
Lemma base_ub c a w : crypto_ok c ->
  (is_ub (base_deserialize c a w) = true <->
   List.length w < 5 \/
   exists s k sg h p m t bufs, a = HmacAuth s k /\ w = sg :: h :: p :: m :: t :: bufs /\
     parses h /\ parses p /\ parses m /\ parses t /\ slen sg < 2 * md_size c s).
Proof.
  intros Hc. rewrite base_unfold. unfold parses.
  destruct w as [|sg [|h [|p [|m [|t bufs]]]]]; try (cbn; split; [left; lia | reflexivity]).
  split.
  - intros H. right.
    destruct (parse h) as [jh|e|u] eqn:Eh; cbn in H; try discriminate; [|pose proof (parse_noub h) as X; rewrite Eh in X; discriminate].
    destruct (parse p) as [jp|e|u] eqn:Ep; cbn in H; try discriminate; [|pose proof (parse_noub p) as X; rewrite Ep in X; discriminate].
    destruct (parse m) as [jm|e|u] eqn:Em; cbn in H; try discriminate; [|pose proof (parse_noub m) as X; rewrite Em in X; discriminate].
    destruct (parse t) as [jt|e|u] eqn:Et; cbn in H; try discriminate; [|pose proof (parse_noub t) as X; rewrite Et in X; discriminate].
    destruct (verify c a sg h p m t) as [[]| |] eqn:Ev; cbn in H; try discriminate.
    destruct a as [|s k]; [discriminate|]. exists s, k, sg, h, p, m, t, bufs. repeat split; eauto.
    apply (verify_ub c s k sg h p m t Hc). now rewrite Ev.
  - intros [H|(s & k & sg' & h' & p' & m' & t' & b' & -> & [= <- <- <- <- <- <-] & [jh Eh] & [jp Ep] & [jm Em] & [jt Et] & Hl)];
      [cbn in H; lia|].
    rewrite Eh, Ep, Em, Et. cbn [bind]. apply (verify_ub c s k sg h p m t Hc) in Hl.
    destruct (verify _ _ _ _ _ _ _); cbn in *; auto; discriminate.
Qed.
Lemma deserialize_ub c a w : crypto_ok c ->
  (is_ub (deserialize c a w) = true <->
   w = [] \/
   exists ids rest, w = (ids ++ DELIMITER :: rest)%list /\ ~ In DELIMITER ids /\ rest <> [] /\
     (List.length rest < 5 \/
      exists s k sg h p m t bufs, a = HmacAuth s k /\ rest = sg :: h :: p :: m :: t :: bufs /\
       parses h /\ parses p /\ parses m /\ parses t /\ slen sg < 2 * md_size c s)).
Proof.
  intros Hc. unfold deserialize. destruct w as [|f w]; [cbn; split; auto|].
  cbn [pop bind]. destruct (take_ids f w []) as [[ids r]|e|u] eqn:E; cbn [bind].
  - apply take_ids_ok in E as (pre & -> & E & Hn & Hr). cbn [app].
    transitivity (is_ub (base_deserialize c a r) = true).
    { destruct (base_deserialize c a r); reflexivity. }
    rewrite base_ub by auto. split.
    + intros H. right. exists pre, r. auto.
    + intros [H|(ids & rest & H1 & H2 & H3 & H4)]; [discriminate|].
      assert (r = rest) as ->; auto.
      rewrite E in H1. clear -H1 Hn H2. revert ids H1 H2. induction pre as [|x pre IH]; intros [|y ids] H1 H2; cbn in H1.
      * congruence.
      * injection H1 as <- _. exfalso. apply H2. now left.
      * injection H1 as -> _. exfalso. apply Hn. now left.
      * injection H1 as <- H1. eapply IH; eauto; intros Hx; [apply Hn|apply H2]; now right.
  - split; [discriminate|]. intros [H|(ids & rest & H1 & H2 & H3 & H4)]; [discriminate|].
    assert (take_ids f w [] = Ok (ids, rest)) by (apply take_ids_ok; exists ids; auto). congruence.
  - pose proof (take_ids_noub f w []) as X. rewrite E in X. discriminate.
Qed.
Lemma base_exn_std c a w e : base_deserialize c a w = Exn e -> is_std e = true.
Proof.
  rewrite base_unfold. destruct w as [|sg [|h [|p [|m [|t bufs]]]]]; try discriminate.
  destruct (parse h) eqn:Eh; cbn [bind]; [|intros [= <-]; eapply parse_exn; eauto|discriminate].
  destruct (parse p) eqn:Ep; cbn [bind]; [|intros [= <-]; eapply parse_exn; eauto|discriminate].
  destruct (parse m) eqn:Em; cbn [bind]; [|intros [= <-]; eapply parse_exn; eauto|discriminate].
  destruct (parse t) eqn:Et; cbn [bind]; [|intros [= <-]; eapply parse_exn; eauto|discriminate].
  destruct (verify _ _ _ _ _ _ _) as [[]|e'|] eqn:Ev; cbn [bind]; try discriminate.
  - intros [= <-]. reflexivity.
  - now apply verify_noexn in Ev.
Qed.
Lemma deserialize_exn_std c a w e : deserialize c a w = Exn e -> is_std e = true.
Proof.
  unfold deserialize. destruct w as [|f w]; [discriminate|]. cbn [pop bind].
  destruct (take_ids f w []) as [[ids r]|e'|u] eqn:E; cbn [bind]; try discriminate.
  - destruct (base_deserialize c a r) eqn:Eb; cbn [bind]; try discriminate. intros [= <-]. eapply base_exn_std; eauto.
  - intros [= <-]. apply take_ids_exn in E as ->. reflexivity.
Qed.

(** ** Signed bytes *)
Lemma signed_obj_inj h1 p1 m1 t1 h2 p2 m2 t2 :
  Forall (fun s => plain s = true /\ exists o, parse s = Ok (JObj o)) [h1; p1; m1; t1; h2; p2; m2; t2] ->
  h1 +++ p1 +++ m1 +++ t1 = h2 +++ p2 +++ m2 +++ t2 ->
  parse h1 = parse h2 /\ parse p1 = parse p2 /\ parse m1 = parse m2 /\ parse t1 = parse t2.
Proof.
  intros F He. repeat match goal with H : Forall _ (_ :: _) |- _ => inversion H; clear H; subst end.
  repeat match goal with H : _ /\ _ |- _ => destruct H | H : exists _, _ |- _ => destruct H end.
  assert (X : forall s o, parse s = Ok (JObj o) -> parse_opt s = Some (JObj o)).
  { intros s o. unfold parse. destruct (parse_opt s); congruence. }
  match goal with
  | A1 : parse h1 = Ok (JObj ?a1), A2 : parse p1 = Ok (JObj ?a2), A3 : parse m1 = Ok (JObj ?a3), A4 : parse t1 = Ok (JObj ?a4),
    B1 : parse h2 = Ok (JObj ?b1), B2 : parse p2 = Ok (JObj ?b2), B3 : parse m2 = Ok (JObj ?b3), B4 : parse t2 = Ok (JObj ?b4) |- _ =>
      assert ([a1; a2; a3; a4] = [b1; b2; b3; b4]) as E;
      [ eapply (obj_texts_inj [h1; p1; m1; t1] [h2; p2; m2; t2] _ _ "" ""); auto;
        [ repeat constructor; auto | repeat constructor; auto | cbn [append sconcat]; rewrite !sapp_nil_r; now rewrite He ]
      | injection E as -> -> -> ->; repeat split; congruence ]
  end.
Qed.

(** ** Headers *)
Lemma make_header_sorted i d t u s : make_header i d t u s =
  JObj [("date", JStr d); ("msg_id", JStr i); ("msg_type", JStr t); ("session", JStr s); ("username", JStr u); ("version", JStr protocol_version)].
Proof. reflexivity. Qed.
Lemma make_header_ok i d t u s :
  is_utf8_valid i = true -> is_utf8_valid d = true -> is_utf8_valid t = true -> is_utf8_valid u = true -> is_utf8_valid s = true ->
  json_ok (make_header i d t u s) = true.
Proof.
  intros H1 H2 H3 H4 H5. rewrite make_header_sorted. apply json_ok_spec. split; [reflexivity|].
  rewrite jvalid_obj. cbn [forallb fst snd jvalid]. rewrite H1, H2, H3, H4, H5. reflexivity.
Qed.
