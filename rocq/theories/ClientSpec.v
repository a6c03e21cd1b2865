(** Vocabulary: the shell socket as a client sees it. *)
From Verif Require Import Base BaseFacts Json JsonText Utf8 Auth Message MessageProofs WireSpec History Comm Tree Kernel KernelSpec KernelLemmas Server ServerSpec SequentialSpec AnsweredSpec.

(** What was sent on the shell socket: multipart messages, in order. *)
Definition shell_frames (evs : list event) : list frames :=
  flat_map (fun e => match e with ESend SHELL _ f => [f] | _ => [] end) evs.
(** A JSON object has the identifier [id]. *)
Definition has_id (id : string) (h : json) : Prop := jfield "msg_id" h = Some (JStr id).

(** No two elements at different places have the same identifier. *)
Definition distinct {A} (P : string -> A -> Prop) (l : list A) : Prop :=
  forall i j x y id, nth_error l i = Some x -> nth_error l j = Some y -> P id x -> P id y -> i = j.

Section Client.
  Context {U : Type} (E : env U).
  (** The client sends the message [q] as the frames [w]: identities,
      delimiter, a signature made with the key of the connection file, and the four JSON texts. *)
  Definition sent (q : xmessage) (w : frames) : Prop :=
    exists th tp tm tc, w = (m_ids q ++ DELIMITER :: sign (e_crypto E) (e_auth E) th tp tm tc :: th :: tp :: tm :: tc :: m_buffers (m_base q))%list /\
      ~ In DELIMITER (m_ids q) /\
      parse th = Ok (m_header (m_base q)) /\ parse tp = Ok (m_parent_header (m_base q)) /\
      parse tm = Ok (m_metadata (m_base q)) /\ parse tc = Ok (m_content (m_base q)).
  (** What a client reads from the frames [f]: the identities [ids] up to the delimiter, a signature
      that it finds valid, the header [h] and the parent header [ph]. *)
  Definition reads (f : frames) (ids : list string) (h ph : json) : Prop :=
    exists sg th tp tm tc bufs, f = (ids ++ DELIMITER :: sg :: th :: tp :: tm :: tc :: bufs)%list /\ ~ In DELIMITER ids /\
      verify (e_crypto E) (e_auth E) sg th tp tm tc = Ok true /\ parse th = Ok h /\ parse tp = Ok ph.
  (** The frames [f] are for the client the answer to [q]. *)
  Definition reply_for (q : xmessage) (f : frames) : Prop :=
    exists h ty rty id, reads f (m_ids q) h (m_header (m_base q)) /\
      typed (m_header (m_base q)) ty /\ (reply_name ty rty \/ abort_type ty rty) /\
      header_with h id rty (e_user_name E) (e_session_id E).
  (** The client finds the identifier [id] in the parent header of [f]. *)
  Definition about (id : string) (f : frames) : Prop := exists ids h ph, reads f ids h ph /\ has_id id ph.
End Client.
