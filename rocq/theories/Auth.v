(** Message signatures, src/xauthentication.cpp. OpenSSL's HMAC is an oracle. *)
From Verif Require Import Base Hex.

(** OpenSSL: digest size of a scheme ([EVP_MD_size]) and HMAC function. *)
Record crypto := {
  md_size : string -> nat;
  hmac : string -> string -> string -> string  (* scheme, key, message *)
}.
(** What is assumed of OpenSSL: the digest has the announced size. *)
Definition crypto_ok (c : crypto) : Prop := forall s k m, slen (hmac c s k m) = md_size c s.

(** The scheme table of [asevp], src/xauthentication.cpp:107-125 (with OpenSSL >= 1.1). *)
Definition schemes : list string :=
  ["hmac-md5"; "hmac-sha1"; "hmac-ripemd160"; "hmac-blake2b512"; "hmac-blake2s256";
   "hmac-sha224"; "hmac-sha256"; "hmac-sha384"; "hmac-sha512"].

(** An authentication object: [no_xauthentication] or [openssl_xauthentication]. *)
Inductive auth := NoAuth | HmacAuth (scheme key : string).

(** [make_xauthentication], src/xauthentication.cpp:94-105, and the constructor 127-137:
    [std::map::at] throws on an unknown scheme. *)
Definition make_xauthentication (scheme key : string) : res auth :=
  if String.eqb scheme "none" then Ok NoAuth
  else if existsb (String.eqb scheme) schemes then Ok (HmacAuth scheme key)
  else Exn (Std "map::at").

(** The digest computed by both [sign_impl] and [verify_impl]: the updates concatenate. *)
Definition digest (c : crypto) (scheme key h p m t : string) : string :=
  hmac c scheme key (h +++ p +++ m +++ t).

(** [sign_impl], src/xauthentication.cpp:149-167 and 191-197. *)
Definition sign (c : crypto) (a : auth) (h p m t : string) : string :=
  match a with
  | NoAuth => ""
  | HmacAuth s k => hex_string (digest c s k h p m t)
  end.

(** [verify_impl], src/xauthentication.cpp:169-189 and 199-206: [CRYPTO_memcmp] reads
    [hex_sig.size()] bytes of the signature frame, whatever its size. *)
Definition verify (c : crypto) (a : auth) (sig h p m t : string) : res bool :=
  match a with
  | NoAuth => Ok true
  | HmacAuth s k =>
      let hex_sig := hex_string (digest c s k h p m t) in
      if slen sig <? slen hex_sig then UB "CRYPTO_memcmp reads past the signature frame"
      else Ok (String.eqb (stake (slen hex_sig) sig) hex_sig)
  end.
