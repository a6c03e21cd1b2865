(** Vocabulary of C108: what somebody knows who has read the connection file, and what they see of the program. *)
From Verif Require Import Base BaseFacts Json JsonText Utf8 Hex Auth Message Tree Kernel KernelSpec Server ServerSpec Split Host HostSpec Shipped ShippedSpec Construct Program.

(** The file that the command line names. *)
Inductive command : list string -> string -> Prop :=
| cm_default program : command [program] "connection.json"
| cm_file program flag f more : command (program :: flag :: f :: more) f.

(** The configuration [c] is one of the protocol: a known scheme and a key to share. *)
Definition shared (c : config) : Prop := g_scheme c = "none" \/ In (g_scheme c) schemes /\ g_key c <> "".
(** Where a client connects to. *)
Definition address (c : config) (ch : chan) : string := "tcp://" +++ g_ip c +++ ":" +++ port_of ch c.
(** The five addresses can be bound, each once; they are short enough to be asked for again. *)
Record available (C : computer) (c : config) : Prop := {
  av_bind : forall bound ch, ~ In (address c ch) bound -> h_bind (p_host C) bound (address c ch) = Some (address c ch);
  av_distinct : forall ch ch', address c ch = address c ch' -> ch = ch';
  av_short : forall ch, slen (address c ch) <= 31
}.
(** Names, identifiers and dates are UTF-8. *)
Record clean (C : computer) : Prop := {
  cl_entry : forall s, p_entry C = Some s -> utf8_text s;
  cl_user : forall s, p_user C = Some s -> utf8_text s;
  cl_guid : forall n, utf8_text (h_guid (p_host C) n);
  cl_now : forall n, utf8_text (p_now C n)
}.
(** The name the messages bear. *)
Definition user_is (C : computer) (s : string) : Prop :=
  p_entry C = Some s \/ p_entry C = None /\ p_user C = Some s \/ p_entry C = None /\ p_user C = None /\ s = "unspecified user".

(** The program is started on a connection file of the protocol with the configuration [c], on a machine where it can serve. *)
Record launched (C : computer) (argv : list string) (c : config) : Prop := {
  la_file : exists f text doc, command argv f /\ p_files C f = Some text /\ parse text = Ok doc /\ declares doc c;
  la_shared : shared c;
  la_tcp : g_transport c = "tcp";
  la_available : available C c;
  la_clean : clean C
}.

Section Reader.
  Context (cr : crypto) (c : config).
  (** The signature of four texts under the key of the file. *)
  Definition seal (h p m t : string) : string :=
    if String.eqb (g_scheme c) "none" then "" else hex_string (hmac cr (g_scheme c) (g_key c) (h +++ p +++ m +++ t)).
  (** The message [q] in the frames [w]. *)
  Definition asks (q : xmessage) (w : frames) : Prop :=
    exists h p m t, w = (m_ids q ++ DELIMITER :: seal h p m t :: h :: p :: m :: t :: m_buffers (m_base q))%list /\ ~ In DELIMITER (m_ids q) /\
      parse h = Ok (m_header (m_base q)) /\ parse p = Ok (m_parent_header (m_base q)) /\ parse m = Ok (m_metadata (m_base q)) /\ parse t = Ok (m_content (m_base q)).
  (** A message with another signature (which is as long as a signature). *)
  Definition forged (w : frames) : Prop :=
    g_scheme c <> "none" /\ exists ids sg h p m t bufs, w = (ids ++ DELIMITER :: sg :: h :: p :: m :: t :: bufs)%list /\ ~ In DELIMITER ids /\
      slen (seal h p m t) <= slen sg /\ forall rest, sg <> seal h p m t +++ rest.
  (** What the frames [w] tell the reader: signed, with a header of this type, user and session, and the texts of parent header and content. *)
  Definition tells (user session : string) (g : gist) (w : frames) : Prop :=
    exists first ty parent content h th tp tc,
      match g with
      | Said _ ty' p' c' => (exists topic, first = [topic]) /\ ty = ty' /\ parent = p' /\ content = c'
      | Replied _ ids ty' p' c' | Asked ids ty' p' c' => first = ids /\ ty = ty' /\ parent = p' /\ content = c'
      end /\
      (exists tm, w = (first ++ [DELIMITER; seal th tp tm tc; th; tp; tm; tc])%list) /\
      dump EStrict h = Ok th /\ jfield "msg_type" h = Some (JStr ty) /\ jfield "username" h = Some (JStr user) /\ jfield "session" h = Some (JStr session) /\
      dump EStrict parent = Ok tp /\ dump EStrict content = Ok tc.
End Reader.

(** The first message of every kernel. *)
Definition starting : gist := Said SHELL "status" (JObj []) (JObj [("execution_state", JStr "starting")]).
(** Where a gist is heard. *)
Definition on_iopub (gs : list gist) : list gist := filter (fun g => match g with Said _ _ _ _ => true | _ => false end) gs.
Definition on_socket (ch : channel) (gs : list gist) : list gist := filter (fun g => match g with Replied ch' _ _ _ _ => Kernel.chan_eqb ch ch' | _ => false end) gs.
(** What was sent through the shell or the control socket. *)
Definition sent_through (ch : channel) (ls : list label) : list frames :=
  flat_map (fun l => match l with Emitted (ESend ch' _ w) => if Kernel.chan_eqb ch ch' then [w] else [] | _ => [] end) ls.

(** The programs with the default server. *)
Definition plain (p : program) : Prop := p = PExample \/ p = PTest.
(** What the programs say. *)
Definition manner_of (p : program) : manner := match p with PExample => example_manner | _ => test_manner end.
Definition targets_of (p : program) : string -> Prop := match p with PExample => fun _ => False | _ => fun name => name = "test_target" end.
