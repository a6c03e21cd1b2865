(** Proofs about loggers and the registered interpreter (C54, C55). *)
From Verif Require Import Base BaseFacts Json JsonText JsonTextProofs JsonParseProofs Utf8 Auth Message Host Logger HostSpec.

Lemma at_level_ok l header parent meta content t : type_of header t ->
  exists m, at_level l header parent meta content = Ok m /\ shows l t header parent meta content m.
Proof.
  intros (h & -> & H). unfold at_level, value_string, jvalue. cbn [jfield] in H.
  assert ((match mfind "msg_type" h with Some v => get_string v | None => Ok "" end) = Ok t) as ->.
  { destruct H as [->|(-> & ->)]; reflexivity. }
  cbn [bind]. eexists. split; [reflexivity|].
  destruct l; (split; [eexists; split; [vm_compute; reflexivity|reflexivity]|]); intros k;
  unfold jobj; cbn [fold_left fst snd mset]; cbv [String.compare Ascii.compare]; cbn -[String.eqb];
  repeat match goal with |- context [String.eqb k ?x] => destruct (String.eqb_spec k x) as [->|] end; reflexivity.
Qed.

Lemma jvalid_type header t : type_of header t -> jvalid header = true -> is_utf8_valid t = true.
Proof.
  intros (h & -> & [H|(_ & ->)]) V; [|reflexivity]. rewrite jvalid_obj in V. cbn [jfield] in H.
  induction h as [|[k v] h IH]; cbn [mfind forallb fst snd] in *; [discriminate|]. apply andb_true_iff in V as [V1 V2].
  destruct (String.eqb _ k); [|auto]. injection H as ->. now apply andb_true_iff in V1 as [_ V1].
Qed.
Lemma at_level_valid l header parent meta content m :
  jvalid header = true -> jvalid parent = true -> jvalid meta = true -> jvalid content = true ->
  at_level l header parent meta content = Ok m -> jvalid m = true.
Proof.
  intros H1 H2 H3 H4 E. unfold at_level in E. destruct (value_string "msg_type" "" header) as [t| |] eqn:T; try discriminate. cbn [bind] in E. injection E as <-.
  assert (is_utf8_valid t = true) as Ht.
  { apply (jvalid_type header); auto. unfold value_string, jvalue in T. destruct header; try discriminate. exists m. split; auto. cbn [jfield].
    destruct (mfind "msg_type" m) as [v|]; [|right; split; congruence]. destruct v; try discriminate. left. cbn in T. congruence. }
  destruct l; unfold jobj; cbn [fold_left fst snd mset]; cbv [String.compare Ascii.compare]; cbn -[is_utf8_valid];
  repeat match goal with |- context [is_utf8_valid (String ?a ?b)] => change (is_utf8_valid (String a b)) with true end; cbn -[is_utf8_valid];
  rewrite ?H1, ?H2, ?H3, ?H4, ?Ht; reflexivity.
Qed.
Lemma dump_valid j : jvalid j = true <-> exists t, dump EStrict j = Ok t.
Proof.
  rewrite <- dump_strict_some. unfold dump. split; intros (t & H); exists t; [now rewrite H|].
  destruct (dump_opt EStrict j); congruence.
Qed.
Lemma write_ok s info m : jvalid m = true -> is_utf8_valid info = true ->
  exists e, write_entry s info m = Ok e /\ match s with SConsole => e = EConsole info m | SFile f => e = EFile f (JObj [("info", JStr info); ("message", m)]) end.
Proof.
  intros V I. destruct s as [|f]; cbn [write_entry].
  - apply dump_valid in V as (t & ->). cbn. eauto.
  - assert (jvalid (jobj [("info", JStr info); ("message", m)]) = true) as W by (cbn -[is_utf8_valid]; rewrite I, V; reflexivity).
    apply dump_valid in W as (t & ->). cbn. eauto.
Qed.
Lemma write_what s info m e : write_entry s info m = Ok e ->
  match s with SConsole => e = EConsole info m | SFile f => e = EFile f (JObj [("info", JStr info); ("message", m)]) end.
Proof. destruct s; cbn [write_entry]; intros H; destruct (dump EStrict _); try discriminate; cbn in H; now injection H as <-. Qed.
(** In any case the loggers at the beginning of the chain have logged. *)
Lemma log_prefix lg info header parent meta content t : type_of header t ->
  let (es, r) := log_message lg info header parent meta content in
  (exists pre post, chain lg = pre ++ post /\ Forall2 (logged info t header parent meta content) pre es /\ (r = Ok tt <-> post = [])) /\ (forall w, r <> UB w).
Proof.
  intros T. induction lg as [|l s next IH]; cbn [log_message].
  - split; [|discriminate]. exists [], []. repeat split; auto.
  - destruct (at_level_ok l header parent meta content t T) as (m & -> & S). cbn [bind].
    destruct (write_entry s info m) as [e|x|w] eqn:W.
    + destruct (log_message next info header parent meta content) as [es r]. destruct IH as ((pre & post & C & F & R) & U).
      split; auto. exists ((l, s) :: pre), post. cbn. rewrite C. split; auto. split; auto. constructor; auto.
      apply write_what in W. unfold logged. cbn. destruct s; subst e; eauto.
    + split; [|discriminate]. exists [], ((l, s) :: chain next). repeat split; auto; discriminate.
    + exfalso. destruct s; cbn [write_entry] in W; unfold dump in W; destruct (dump_opt _ _); discriminate.
Qed.
Lemma log_all lg info header parent meta content t : type_of header t -> is_utf8_valid info = true ->
  jvalid header = true -> jvalid parent = true -> jvalid meta = true -> jvalid content = true ->
  exists es, log_message lg info header parent meta content = (es, Ok tt) /\ Forall2 (logged info t header parent meta content) (chain lg) es.
Proof.
  intros T I H1 H2 H3 H4. induction lg as [|l s next (es & IH & F)]; cbn [log_message].
  - exists []. split; auto. constructor.
  - destruct (at_level_ok l header parent meta content t T) as (m & E & S). rewrite E. cbn [bind].
    pose proof (at_level_valid _ _ _ _ _ _ H1 H2 H3 H4 E) as V. destruct (write_ok s info m V I) as (e & -> & W). rewrite IH.
    exists (e :: es). split; auto. constructor; auto. unfold logged. cbn. destruct s; subst e; eauto.
Qed.
(** A header without a usable type: nothing is logged. *)
Lemma log_untyped lg info header parent meta content : (forall t, ~ type_of header t) -> lg <> LNolog ->
  exists e, log_message lg info header parent meta content = ([], Exn e).
Proof.
  intros T N. destruct lg as [|l s next]; [congruence|]. cbn [log_message]. unfold at_level, value_string, jvalue.
  destruct header; try (cbn; eauto; fail). destruct (mfind "msg_type" m) as [v|] eqn:M.
  - destruct v; cbn; eauto. exfalso. eapply T. exists m. split; eauto.
  - exfalso. apply (T ""). exists m. split; auto.
Qed.

(** ** Registration *)
Section Reg.
  Context {interp : Type} (mock : interp).
  Lemma run_app (pre : list (rop (interp := interp))) op post : forall reg,
    nth_error (run_registration mock reg (pre ++ op :: post)) (List.length pre) =
    Some (match op with
          | Get => RInterp (match reg with Some i => i | None => match first_registered pre with Some i => i | None => mock end end)
          | Register i => RBool (match reg with Some _ => false | None => match first_registered pre with Some _ => false | None => true end end)
          end).
  Proof.
    induction pre as [|o pre IH]; intros reg; cbn [app run_registration List.length].
    - destruct op as [i|]; cbn; destruct reg; reflexivity.
    - destruct o as [i|].
      + destruct reg as [r|]; cbn [register_interpreter nth_error]; rewrite IH; [reflexivity|]. destruct i; cbn; reflexivity.
      + cbn [nth_error]. rewrite IH. reflexivity.
  Qed.
End Reg.
