(** Messages and their wire format, src/xmessage.cpp. *)
From Verif Require Import Base Json JsonText Hex Auth.

(** A multipart message: list of frames. *)
Definition frames := list string.

(** [xmessage_base::DELIMITER], src/xmessage.cpp:26. *)
Definition DELIMITER : string := "<IDS|MSG>".

(** [xmessage_base] members, include/xeus/xmessage.hpp:65-69. *)
Record xbase := {
  m_header : json;
  m_parent_header : json;
  m_metadata : json;
  m_content : json;
  m_buffers : list string
}.
(** [xmessage], include/xeus/xmessage.hpp:72-105. *)
Record xmessage := { m_ids : list string; m_base : xbase }.
(** [xpub_message], include/xeus/xmessage.hpp:107-139. *)
Record xpub := { m_topic : string; m_pbase : xbase }.

(** [is_delimiter], src/xmessage.cpp:50-60. *)
Definition is_delimiter (f : string) : bool :=
  if negb (slen f =? slen DELIMITER) then false else String.eqb f DELIMITER.

(** [multipart_t::pop]: undefined on an empty message. *)
Definition pop (w : frames) : res (string * frames) :=
  match w with [] => UB "pop on an empty multipart" | f :: w' => Ok (f, w') end.

Definition bad_signature : exn := Std "Signatures don't match".
Definition no_delimiter : exn := Std "Delimiter not present in message".

(** [xmessage_base::deserialize], src/xmessage.cpp:62-85. *)
Definition base_deserialize (c : crypto) (a : auth) (w : frames) : res xbase :=
  let* (signature, w) := pop w in
  let* (header, w) := pop w in
  let* (parent_header, w) := pop w in
  let* (metadata, w) := pop w in
  let* (content, w) := pop w in
  let* jh := parse header in
  let* jp := parse parent_header in
  let* jm := parse metadata in
  let* jc := parse content in
  let* ok := verify c a signature header parent_header metadata content in
  if ok then
    Ok {| m_header := jh; m_parent_header := jp; m_metadata := jm; m_content := jc; m_buffers := w |}
  else Exn bad_signature.

(** The identity loop, src/xmessage.cpp:155-168. *)
Fixpoint take_ids (frame : string) (w : frames) (ids : list string) : res (list string * frames) :=
  match w with
  | [] => Exn no_delimiter
  | f :: w' => if is_delimiter frame then Ok (ids, w) else take_ids f w' (ids ++ [frame])
  end.

(** [xmessage::deserialize], src/xmessage.cpp:153-171. *)
Definition deserialize (c : crypto) (a : auth) (w : frames) : res xmessage :=
  let* (frame, w) := pop w in
  let* (ids, w) := take_ids frame w [] in
  let* b := base_deserialize c a w in
  Ok {| m_ids := ids; m_base := b |}.

(** [xmessage_base::serialize], src/xmessage.cpp:87-111. *)
Definition base_serialize (c : crypto) (a : auth) (h : ehandler) (b : xbase) : res frames :=
  let* header := dump h (m_header b) in
  let* parent_header := dump h (m_parent_header b) in
  let* metadata := dump h (m_metadata b) in
  let* content := dump h (m_content b) in
  Ok ([sign c a header parent_header metadata content; header; parent_header; metadata; content]
        ++ m_buffers b).

(** [xmessage::serialize], src/xmessage.cpp:173-183. *)
Definition serialize (c : crypto) (a : auth) (h : ehandler) (m : xmessage) : res frames :=
  let* w := base_serialize c a h (m_base m) in
  Ok (m_ids m ++ DELIMITER :: w).

(** [xpub_message::deserialize], src/xmessage.cpp:205-211. *)
Definition pub_deserialize (c : crypto) (a : auth) (w : frames) : res xpub :=
  let* (topic, w) := pop w in
  let* (_, w) := pop w in
  let* b := base_deserialize c a w in
  Ok {| m_topic := topic; m_pbase := b |}.

(** [xpub_message::serialize], src/xmessage.cpp:213-220. *)
Definition pub_serialize (c : crypto) (a : auth) (h : ehandler) (m : xpub) : res frames :=
  let* w := base_serialize c a h (m_pbase m) in
  Ok (m_topic m :: DELIMITER :: w).

(** [get_protocol_version], src/xmessage.cpp:246-249; XEUS_KERNEL_PROTOCOL_VERSION is
    "5.3" (include/xeus/xeus.hpp:38-48). *)
Definition protocol_version : string := "5.3".

(** [make_header], src/xmessage.cpp:251-263, given the generated id and date. *)
Definition make_header (msg_id date msg_type user_name session_id : string) : json :=
  jobj [("msg_id", JStr msg_id); ("username", JStr user_name); ("session", JStr session_id);
        ("date", JStr date); ("msg_type", JStr msg_type); ("version", JStr protocol_version)].
