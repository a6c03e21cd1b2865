(** Statements of PropsWire.v that need a proof of their own, and the concrete data of its examples. *)
From Verif Require Import Base BaseFacts Json Utf8 Utf8Proofs JsonText JsonTextProofs JsonParseProofs Hex Auth Message MessageProofs WireSpec.

(** Frames of a request or reply. *)
Definition wire (ids : list string) (sg h p m t : string) (bufs : list string) : frames :=
  (ids ++ DELIMITER :: sg :: h :: p :: m :: t :: bufs)%list.

Lemma wire_accept c a ids sg h p m t bufs : ~ In DELIMITER ids -> forall msg,
  deserialize c a (wire ids sg h p m t bufs) = Ok msg <->
  m_ids msg = ids /\ m_buffers (m_base msg) = bufs /\
  parse h = Ok (m_header (m_base msg)) /\ parse p = Ok (m_parent_header (m_base msg)) /\
  parse m = Ok (m_metadata (m_base msg)) /\ parse t = Ok (m_content (m_base msg)) /\
  verify c a sg h p m t = Ok true.
Proof.
  intros Hd msg. unfold wire. rewrite deserialize_ok. split.
  - intros (rest & E & Hn & Hb).
    assert (m_ids msg = ids /\ rest = sg :: h :: p :: m :: t :: bufs) as [-> ->].
    { clear Hb. revert ids E Hd. induction (m_ids msg) as [|x l IH]; intros [|y ids] E Hd; cbn in E.
      - injection E as ->. auto.
      - injection E as -> _. exfalso. apply Hd. now left.
      - injection E as <- _. exfalso. apply Hn. now left.
      - injection E as -> E. destruct (IH (fun H => Hn (or_intror H)) _ E (fun H => Hd (or_intror H))) as [-> ->]. auto. }
    apply base_ok in Hb as (sg' & h' & p' & m' & t' & [= <- <- <- <- <- <-] & H1 & H2 & H3 & H4 & H5). auto 10.
  - intros (<- & <- & H1 & H2 & H3 & H4 & H5). eexists; repeat split; eauto. apply base_ok. exists sg, h, p, m, t. auto 10.
Qed.

Lemma accept_prefix c s k ids sg h p m t bufs msg : ~ In DELIMITER ids ->
  deserialize c (HmacAuth s k) (wire ids sg h p m t bufs) = Ok msg ->
  exists tail, sg = hex_string (hmac c s k (h +++ p +++ m +++ t)) +++ tail.
Proof. intros Hd H. apply wire_accept in H as (_ & _ & _ & _ & _ & _ & H); auto. now apply verify_true in H. Qed.
Lemma accept_iff c s k ids sg h p m t bufs : ~ In DELIMITER ids ->
  ((exists msg, deserialize c (HmacAuth s k) (wire ids sg h p m t bufs) = Ok msg) <->
   (exists tail, sg = hex_string (hmac c s k (h +++ p +++ m +++ t)) +++ tail) /\ parses h /\ parses p /\ parses m /\ parses t).
Proof.
  intros Hd. unfold parses. split.
  - intros [msg H]. split; [eapply accept_prefix; eauto|]. apply wire_accept in H as (_ & _ & H1 & H2 & H3 & H4 & _); eauto 10.
  - intros ([tail ->] & [j1 H1] & [j2 H2] & [j3 H3] & [j4 H4]).
    exists {| m_ids := ids; m_base := {| m_header := j1; m_parent_header := j2; m_metadata := j3; m_content := j4; m_buffers := bufs |} |}.
    apply wire_accept; auto. cbn [m_ids m_base m_header m_parent_header m_metadata m_content m_buffers].
    repeat split; auto. apply verify_true. eauto.
Qed.

(** Identities and buffers are not covered by the signature. *)
Lemma unsigned_parts c a ids1 ids2 sg h p m t b1 b2 msg : ~ In DELIMITER ids1 -> ~ In DELIMITER ids2 ->
  deserialize c a (wire ids1 sg h p m t b1) = Ok msg ->
  exists msg', deserialize c a (wire ids2 sg h p m t b2) = Ok msg' /\
    m_ids msg' = ids2 /\ m_buffers (m_base msg') = b2 /\ base_parts (m_base msg') = base_parts (m_base msg).
Proof.
  intros H1 H2 H. apply wire_accept in H as (Hi & Hb & Hh & Hp & Hm & Hc & Hv); auto.
  exists {| m_ids := ids2; m_base := {| m_header := m_header (m_base msg); m_parent_header := m_parent_header (m_base msg);
     m_metadata := m_metadata (m_base msg); m_content := m_content (m_base msg); m_buffers := b2 |} |}.
  split; [|auto]. apply wire_accept; cbn; auto 10.
Qed.

Definition object_text (s : string) : Prop := exists o, parse s = Ok (JObj o).
(** Two accepted messages with the same signed bytes whose signed frames are JSON objects,
    without NUL bytes and byte order mark, have the same four JSON parts. *)
Lemma signed_parts_same c1 a1 c2 a2 ids1 sg1 h1 p1 m1 t1 b1 ids2 sg2 h2 p2 m2 t2 b2 msg1 msg2 :
  ~ In DELIMITER ids1 -> ~ In DELIMITER ids2 ->
  deserialize c1 a1 (wire ids1 sg1 h1 p1 m1 t1 b1) = Ok msg1 ->
  deserialize c2 a2 (wire ids2 sg2 h2 p2 m2 t2 b2) = Ok msg2 ->
  Forall (fun s => plain s = true /\ object_text s) [h1; p1; m1; t1; h2; p2; m2; t2] ->
  h1 +++ p1 +++ m1 +++ t1 = h2 +++ p2 +++ m2 +++ t2 ->
  base_parts (m_base msg1) = base_parts (m_base msg2).
Proof.
  intros D1 D2 E1 E2 F Hb. apply wire_accept in E1 as (_ & _ & A1 & A2 & A3 & A4 & _); auto.
  apply wire_accept in E2 as (_ & _ & B1 & B2 & B3 & B4 & _); auto.
  pose proof (signed_obj_inj _ _ _ _ _ _ _ _ F Hb) as (X1 & X2 & X3 & X4). unfold base_parts. congruence.
Qed.

(** Reserializing what was received and reading it again changes nothing. *)
Lemma reserialize c a h w m : deserialize c a w = Ok m ->
  exists w', serialize c a h m = Ok w' /\ deserialize c a w' = Ok m.
Proof. intros H. apply deserialize_ok_json in H as [H1 H2]. now apply round_trip_msg. Qed.

(** Serialized messages are exactly identities, delimiter, signature, four texts, buffers. *)
Lemma serialize_shape c a h m w : serialize c a h m = Ok w ->
  exists th tp tm tc, dump h (m_header (m_base m)) = Ok th /\ dump h (m_parent_header (m_base m)) = Ok tp /\
    dump h (m_metadata (m_base m)) = Ok tm /\ dump h (m_content (m_base m)) = Ok tc /\
    w = wire (m_ids m) (sign c a th tp tm tc) th tp tm tc (m_buffers (m_base m)).
Proof.
  unfold serialize, base_serialize.
  destruct (dump h (m_header (m_base m))) as [t1| |] eqn:E1; try discriminate.
  destruct (dump h (m_parent_header (m_base m))) as [t2| |] eqn:E2; try discriminate.
  destruct (dump h (m_metadata (m_base m))) as [t3| |] eqn:E3; try discriminate.
  destruct (dump h (m_content (m_base m))) as [t4| |] eqn:E4; try discriminate.
  cbn. intros [= <-]. exists t1, t2, t3, t4. auto 10.
Qed.

(** ** Data of the examples *)
(** A toy keyed digest of four bytes: each byte of key and message shifts the state. *)
Fixpoint toy_mix (a b c d : N) (s : string) : string :=
  match s with
  | "" => String (chr a) (String (chr b) (String (chr c) (String (chr d) "")))
  | String x r => toy_mix b c d ((a * 31 + d * 7 + code x + 1) mod 256)%N r
  end.
Definition toy : crypto := {| md_size := fun _ => 4; hmac := fun s k m => toy_mix 1 2 3 4 (s +++ k +++ m) |}.
Lemma toy_mix_len s : forall a b c d, slen (toy_mix a b c d s) = 4.
Proof. induction s as [|x s IH]; intros; cbn [toy_mix]; [reflexivity|]. apply IH. Qed.
Lemma toy_ok : crypto_ok toy.
Proof. intros s k m. apply toy_mix_len. Qed.
Definition toy_auth : auth := HmacAuth "hmac-sha256" "secret".

Definition demo_base : xbase :=
  {| m_header := jobj [("msg_id", JStr "a1"); ("msg_type", JStr "execute_request"); ("version", JStr "5.3")];
     m_parent_header := jobj [];
     m_metadata := jobj [("x", JArr [JInt (-3); JBool true; JNull; JFloat "1.5e3"])];
     m_content := jobj [("code", JStr (utf8_encode 8364 +++ String (chr 10) "print(1)")); ("silent", JBool false)];
     m_buffers := ["raw" +++ String (chr 0) (String (chr 255) ""); ""] |}.
Definition demo_msg : xmessage := {| m_ids := ["peer1"; String (chr 0) "x"]; m_base := demo_base |}.
Definition demo_pub : xpub := {| m_topic := "kernel_core.1.status"; m_pbase := demo_base |}.

(** ** Authentication factory *)
Lemma none_accepts c key a sg h p m t : make_xauthentication "none" key = Ok a -> verify c a sg h p m t = Ok true.
Proof. intros [= <-]. reflexivity. Qed.
Lemma schemes_iff scheme key : (exists a, make_xauthentication scheme key = Ok a) <-> In scheme ("none" :: schemes).
Proof.
  unfold make_xauthentication. destruct (String.eqb_spec scheme "none") as [->|Hn].
  - split; [left; reflexivity | eauto].
  - destruct (existsb (String.eqb scheme) schemes) eqn:E.
    + apply existsb_exists in E as (x & Hx & Ex). apply String.eqb_eq in Ex as <-. split; [intros _; now right | eauto].
    + split; [intros [a H]; discriminate|]. intros [H|H]; [congruence|].
      exfalso. assert (existsb (String.eqb scheme) schemes = true); [|congruence].
      apply existsb_exists. exists scheme. split; auto. apply String.eqb_refl.
Qed.
Lemma unknown_throws scheme key : (forall a, make_xauthentication scheme key <> Ok a) ->
  exists e, make_xauthentication scheme key = Exn e /\ is_std e = true.
Proof.
  unfold make_xauthentication. intros H. destruct (String.eqb scheme "none"); [now destruct (H NoAuth)|].
  destruct (existsb (String.eqb scheme) schemes); [now destruct (H (HmacAuth scheme key))|]. eauto.
Qed.

Lemma hex_lower_ascii c : hex_lower c = true -> (code c <? 128)%N = true.
Proof. unfold hex_lower. lia. Qed.
Lemma hex_string_utf8 s : utf8_text (hex_string s).
Proof.
  apply is_utf8_valid_spec. rewrite is_utf8_valid_urun, urun_asc; auto.
  unfold asc. eapply sall_impl; [exact hex_lower_ascii|]. apply hex_string_lower.
Qed.
Lemma guid_spec b1 b2 : slen b1 = 16 -> slen b2 = 16 ->
  slen (xguid_of_bytes b1) = 32 /\ slen (xguid_of_bytes b1) <= xguid_capacity /\
  utf8_text (xguid_of_bytes b1) /\ (xguid_of_bytes b1 = xguid_of_bytes b2 -> b1 = b2).
Proof.
  intros H1 H2. unfold xguid_of_bytes. rewrite hex_string_len, H1. repeat split; auto.
  - unfold xguid_capacity. lia.
  - apply hex_string_utf8.
  - apply hex_string_inj.
Qed.
Lemma utf8_in_range st c : st <= 8 ->
  N.to_nat (code c) < List.length utf8d /\ 256 + st * 16 + utf8_type c < List.length utf8d /\ utf8_next st c <= 8.
Proof.
  intros H. pose proof (utf8_type_le c) as Ht. pose proof (code_lt c) as Hc. pose proof (utf8_next_le st c H) as Hn.
  change (List.length utf8d) with (Z.to_nat 400). repeat split; auto; lia.
Qed.
