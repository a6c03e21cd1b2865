(** Properties C01-C06, C48, C49, C58: wire format, signatures, encodings. *)
From Verif Require Import Base Json Utf8 Utf8Proofs JsonText JsonTextProofs JsonParseProofs Hex Auth Message MessageProofs WireSpec WireLemmas.

(** C01. [base_ok_json]: sorted objects, integers in the 64-bit ranges, finite floats, UTF-8 strings. *)
Theorem C01_round_trip : forall c a h m,
  base_ok_json (m_base m) = true -> ~ In DELIMITER (m_ids m) ->
  exists w, serialize c a h m = Ok w /\ deserialize c a w = Ok m.
Proof. exact round_trip_msg. Qed.
Print Assumptions C01_round_trip.
Example C01_ex : base_ok_json (m_base demo_msg) = true /\ ~ In DELIMITER (m_ids demo_msg) /\
  exists w, serialize toy toy_auth EStrict demo_msg = Ok w /\ List.length w = 10.
Proof. split; [vm_compute; reflexivity|]. split; [cbn; intuition discriminate|]. eexists; split; [vm_compute; reflexivity | reflexivity]. Qed.

(** C01: layout of the serialized message. *)
Theorem C01_layout : forall c a h m w, serialize c a h m = Ok w ->
  exists th tp tm tc, dump h (m_header (m_base m)) = Ok th /\ dump h (m_parent_header (m_base m)) = Ok tp /\
    dump h (m_metadata (m_base m)) = Ok tm /\ dump h (m_content (m_base m)) = Ok tc /\
    w = wire (m_ids m) (sign c a th tp tm tc) th tp tm tc (m_buffers (m_base m)).
Proof. exact serialize_shape. Qed.
Print Assumptions C01_layout.

(** C01: whatever was accepted can be sent on and is read back identically. *)
Theorem C01_reserialize : forall c a h w m, deserialize c a w = Ok m ->
  exists w', serialize c a h m = Ok w' /\ deserialize c a w' = Ok m.
Proof. exact reserialize. Qed.
Print Assumptions C01_reserialize.
Example C01_reserialize_ex :
  exists m, deserialize toy NoAuth (wire ["i"] "" " {""b"":1, ""a"":2} " "{}" "{ }" "{}" []) = Ok m.
Proof. eexists. vm_compute. reflexivity. Qed.

(** The hypothesis on identities is needed: an identity equal to the delimiter is lost. *)
Theorem C01_delimiter_needed : exists m w, base_ok_json (m_base m) = true /\
  serialize toy toy_auth EStrict m = Ok w /\ deserialize toy toy_auth w <> Ok m.
Proof.
  exists {| m_ids := [DELIMITER]; m_base := demo_base |}. eexists. split; [vm_compute; reflexivity|].
  split; [vm_compute; reflexivity|]. vm_compute. discriminate.
Qed.
Print Assumptions C01_delimiter_needed.

(** C02 *)
Theorem C02_round_trip : forall c a h m, base_ok_json (m_pbase m) = true ->
  exists w, pub_serialize c a h m = Ok w /\ pub_deserialize c a w = Ok m.
Proof. exact round_trip_pub. Qed.
Print Assumptions C02_round_trip.
Example C02_ex : base_ok_json (m_pbase demo_pub) = true.
Proof. vm_compute. reflexivity. Qed.

(** C03. Exact set of frame sequences on which deserialization is undefined. *)
Theorem C03_undefined_iff : forall c a w, crypto_ok c ->
  (is_ub (deserialize c a w) = true <->
   w = [] \/
   exists ids rest, w = (ids ++ DELIMITER :: rest)%list /\ ~ In DELIMITER ids /\ rest <> [] /\
     (List.length rest < 5 \/
      exists s k sg h p m t bufs, a = HmacAuth s k /\ rest = sg :: h :: p :: m :: t :: bufs /\
       parses h /\ parses p /\ parses m /\ parses t /\ slen sg < 2 * md_size c s)).
Proof. exact deserialize_ub. Qed.
Print Assumptions C03_undefined_iff.
(** C03. Exceptions of deserialization always derive from std::exception. *)
Theorem C03_exception_std : forall c a w e, deserialize c a w = Exn e -> is_std e = true.
Proof. exact deserialize_exn_std. Qed.
Print Assumptions C03_exception_std.
Example C03_ex : exists e, deserialize toy toy_auth ["a"; "b"; "c"] = Exn e.
Proof. eexists. vm_compute. reflexivity. Qed.
(** C03 does not hold of the code: an empty message, too few frames after the delimiter, a short signature. *)
Theorem C03_refuted : crypto_ok toy /\
  is_ub (deserialize toy toy_auth []) = true /\
  is_ub (deserialize toy NoAuth ["id"; DELIMITER; ""; "{}"; "{}"; "{}"]) = true /\
  is_ub (deserialize toy toy_auth (wire ["id"] "0123456" "{}" "{}" "{}" "{}" [])) = true.
Proof. split; [exact toy_ok|]. vm_compute. auto. Qed.
Print Assumptions C03_refuted.

(** C04. Acceptance under an HMAC scheme: the hexadecimal digest is a prefix of the signature frame. *)
Theorem C04_accept_iff : forall c s k ids sg h p m t bufs, ~ In DELIMITER ids ->
  ((exists msg, deserialize c (HmacAuth s k) (wire ids sg h p m t bufs) = Ok msg) <->
   (exists tail, sg = hex_string (hmac c s k (h +++ p +++ m +++ t)) +++ tail) /\ parses h /\ parses p /\ parses m /\ parses t).
Proof. exact accept_iff. Qed.
Print Assumptions C04_accept_iff.
Example C04_ex : exists msg, deserialize toy toy_auth (wire ["id"] (sign toy toy_auth "{}" "{}" "{}" "{}") "{}" "{}" "{}" "{}" []) = Ok msg.
Proof. eexists. vm_compute. reflexivity. Qed.
(** C04: equality of the signature is not enforced. *)
Theorem C04_equality_refuted : exists sg msg,
  deserialize toy toy_auth (wire ["id"] sg "{}" "{}" "{}" "{}" []) = Ok msg /\
  sg <> hex_string (hmac toy "hmac-sha256" "secret" ("{}" +++ "{}" +++ "{}" +++ "{}")).
Proof.
  exists (sign toy toy_auth "{}" "{}" "{}" "{}" +++ "tail"). eexists. split; [vm_compute; reflexivity|]. vm_compute. discriminate.
Qed.
Print Assumptions C04_equality_refuted.

(** C05. [plain]: no NUL byte and no byte order mark. *)
Theorem C05_signed_parts : forall c1 a1 c2 a2 ids1 sg1 h1 p1 m1 t1 b1 ids2 sg2 h2 p2 m2 t2 b2 msg1 msg2,
  ~ In DELIMITER ids1 -> ~ In DELIMITER ids2 ->
  deserialize c1 a1 (wire ids1 sg1 h1 p1 m1 t1 b1) = Ok msg1 ->
  deserialize c2 a2 (wire ids2 sg2 h2 p2 m2 t2 b2) = Ok msg2 ->
  Forall (fun s => plain s = true /\ object_text s) [h1; p1; m1; t1; h2; p2; m2; t2] ->
  h1 +++ p1 +++ m1 +++ t1 = h2 +++ p2 +++ m2 +++ t2 ->
  base_parts (m_base msg1) = base_parts (m_base msg2).
Proof. exact signed_parts_same. Qed.
Print Assumptions C05_signed_parts.
Example C05_ex : Forall (fun s => plain s = true /\ object_text s) ["{} "; " {}"; "{""a"":1}"; "{}"; "{}  "; "{}"; "{""a"":1}"; "{}"]
  /\ "{} " +++ " {}" +++ "{""a"":1}" +++ "{}" = "{}  " +++ "{}" +++ "{""a"":1}" +++ "{}".
Proof. split; [|reflexivity]. repeat constructor; try (vm_compute; reflexivity); unfold object_text; eexists; vm_compute; reflexivity. Qed.
(** C05: identities and buffers can be replaced freely. *)
Theorem C05_unsigned_parts : forall c a ids1 ids2 sg h p m t b1 b2 msg,
  ~ In DELIMITER ids1 -> ~ In DELIMITER ids2 ->
  deserialize c a (wire ids1 sg h p m t b1) = Ok msg ->
  exists msg', deserialize c a (wire ids2 sg h p m t b2) = Ok msg' /\
    m_ids msg' = ids2 /\ m_buffers (m_base msg') = b2 /\ base_parts (m_base msg') = base_parts (m_base msg).
Proof. exact unsigned_parts. Qed.
Print Assumptions C05_unsigned_parts.
(** C05: with NUL bytes (the parser stops at the first one), or with numbers as frames, bytes can
    be moved between signed frames and the message still verifies with the same signature. *)
Theorem C05_refuted :
  (exists sg h1 p1 h2 p2 m1 m2,
     deserialize toy toy_auth (wire ["id"] sg h1 p1 "{}" "{}" []) = Ok m1 /\
     deserialize toy toy_auth (wire ["id"] sg h2 p2 "{}" "{}" []) = Ok m2 /\
     object_text h1 /\ object_text p1 /\ object_text h2 /\ object_text p2 /\
     base_parts (m_base m1) <> base_parts (m_base m2)) /\
  (exists sg m1 m2,
     deserialize toy toy_auth (wire ["id"] sg "1" "23" "{}" "{}" []) = Ok m1 /\
     deserialize toy toy_auth (wire ["id"] sg "12" "3" "{}" "{}" []) = Ok m2 /\
     base_parts (m_base m1) <> base_parts (m_base m2)).
Proof.
  set (nul := String (chr 0) "").
  split.
  - exists (sign toy toy_auth ("{}" +++ nul +++ "{""a"":1}" +++ nul) "{}" "{}" "{}").
    exists ("{}" +++ nul +++ "{""a"":1}" +++ nul), "{}", ("{}" +++ nul), ("{""a"":1}" +++ nul +++ "{}").
    eexists. eexists. split; [vm_compute; reflexivity|]. split; [vm_compute; reflexivity|].
    unfold object_text. repeat (split; [eexists; vm_compute; reflexivity|]). vm_compute. discriminate.
  - exists (sign toy toy_auth "1" "23" "{}" "{}"). eexists. eexists. split; [vm_compute; reflexivity|].
    split; [vm_compute; reflexivity|]. vm_compute. discriminate.
Qed.
Print Assumptions C05_refuted.

(** C06 *)
Theorem C06_sign_verify : forall c a h p m t, verify c a (sign c a h p m t) h p m t = Ok true.
Proof. exact verify_sign. Qed.
Print Assumptions C06_sign_verify.
Theorem C06_none : forall c key a sg h p m t, make_xauthentication "none" key = Ok a -> verify c a sg h p m t = Ok true.
Proof. exact none_accepts. Qed.
Print Assumptions C06_none.
Theorem C06_schemes : forall scheme key,
  (exists a, make_xauthentication scheme key = Ok a) <->
  In scheme ["none"; "hmac-md5"; "hmac-sha1"; "hmac-ripemd160"; "hmac-blake2b512"; "hmac-blake2s256";
             "hmac-sha224"; "hmac-sha256"; "hmac-sha384"; "hmac-sha512"].
Proof. exact schemes_iff. Qed.
Print Assumptions C06_schemes.
Theorem C06_unknown_throws : forall scheme key, (forall a, make_xauthentication scheme key <> Ok a) ->
  exists e, make_xauthentication scheme key = Exn e /\ is_std e = true.
Proof. exact unknown_throws. Qed.
Print Assumptions C06_unknown_throws.
Example C06_ex : make_xauthentication "hmac-sha256" "k" = Ok (HmacAuth "hmac-sha256" "k") /\ make_xauthentication "" "k" = Exn (Std "map::at").
Proof. split; reflexivity. Qed.

(** C48 *)
Theorem C48_hex_length : forall s, slen (hex_string s) = 2 * slen s.
Proof. exact hex_string_len. Qed.
Print Assumptions C48_hex_length.
(** Decoding as lower-case hexadecimal text gives back the bytes. *)
Theorem C48_hex_decodes : forall s, unhex (hex_string s) = Some s.
Proof. exact unhex_hex. Qed.
Print Assumptions C48_hex_decodes.
Theorem C48_hex_injective : forall a b, hex_string a = hex_string b -> a = b.
Proof. exact hex_string_inj. Qed.
Print Assumptions C48_hex_injective.
Theorem C48_guid : forall b1 b2, slen b1 = 16 -> slen b2 = 16 ->
  slen (xguid_of_bytes b1) = 32 /\ slen (xguid_of_bytes b1) <= xguid_capacity /\
  utf8_text (xguid_of_bytes b1) /\ (xguid_of_bytes b1 = xguid_of_bytes b2 -> b1 = b2).
Proof. exact guid_spec. Qed.
Print Assumptions C48_guid.
Example C48_ex : hex_string (String (chr 0) (String (chr 15) (String (chr 160) ""))) = "000fa0".
Proof. vm_compute. reflexivity. Qed.

(** C49 *)
Theorem C49_utf8 : forall s, is_utf8_valid s = true <-> utf8_text s.
Proof. exact is_utf8_valid_spec. Qed.
Print Assumptions C49_utf8.
(** The table is never read out of range. *)
Theorem C49_in_range : forall st c, st <= 8 -> N.to_nat (code c) < List.length utf8d /\ 256 + st * 16 + utf8_type c < List.length utf8d /\ utf8_next st c <= 8.
Proof. exact utf8_in_range. Qed.
Print Assumptions C49_in_range.
Example C49_ex : is_utf8_valid (String (chr 0xE2) (String (chr 0x82) (String (chr 0xAC) ""))) = true /\
  is_utf8_valid (String (chr 0xC0) (String (chr 0x80) "")) = false.
Proof. vm_compute. auto. Qed.

(** C58 *)
Theorem C58_strict : forall c a m,
  ((exists w, serialize c a EStrict m = Ok w) <-> Forall utf8_json (base_parts (m_base m))) /\
  (serialize c a EStrict m = Exn type_error_316 <-> ~ Forall utf8_json (base_parts (m_base m))).
Proof. exact msg_serialize_strict. Qed.
Print Assumptions C58_strict.
Theorem C58_lenient : forall c a h m, h <> EStrict ->
  exists sg h' p' m' t', serialize c a h m = Ok (m_ids m ++ DELIMITER :: sg :: h' :: p' :: m' :: t' :: m_buffers (m_base m))%list /\
    Forall utf8_text [h'; p'; m'; t'].
Proof. exact msg_serialize_lenient. Qed.
Print Assumptions C58_lenient.
Theorem C58_same : forall c a h m w, serialize c a EStrict m = Ok w -> serialize c a h m = Ok w.
Proof. exact msg_serialize_same. Qed.
Print Assumptions C58_same.
Example C58_ex :
  dump EStrict (JStr (String (chr 255) "a")) = Exn type_error_316 /\
  dump EIgnore (JStr (String (chr 255) "a")) = Ok (quoted "a") /\
  dump EReplace (JStr (String (chr 255) "a")) = Ok (quoted (utf8_encode 0xFFFD +++ "a")).
Proof. vm_compute. auto. Qed.
