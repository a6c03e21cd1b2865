(** Specifications for the wire-format properties, independent of the model's helpers, and the
    lemmas relating them to the model. *)
From Verif Require Import Base BaseFacts Json Utf8 Utf8Proofs JsonText JsonTextProofs JsonParseProofs Hex Auth Message MessageProofs.

(** A string (value or key) occurring in a JSON value. *)
Inductive string_in (s : string) : json -> Prop :=
| si_str : string_in s (JStr s)
| si_elem l x : In x l -> string_in s x -> string_in s (JArr l)
| si_key m x : In (s, x) m -> string_in s (JObj m)
| si_member m k x : In (k, x) m -> string_in s x -> string_in s (JObj m).
(** A JSON value all of whose strings are UTF-8. *)
Definition utf8_json (j : json) : Prop := forall s, string_in s j -> utf8_text s.

Lemma jvalid_utf8 j : jvalid j = true <-> utf8_json j.
Proof.
  unfold utf8_json. induction j as [|b|z|f|s|l IH|m IH] using json_ind'; try (split; [intros _ s Hs; inversion Hs | reflexivity]).
  - cbn. rewrite is_utf8_valid_spec. split; [intros H s' Hs; inversion Hs; now subst | intros H; apply H; constructor].
  - rewrite jvalid_arr, forallb_forall. rewrite Forall_forall in IH. split.
    + intros H s Hs. inversion Hs as [|l' x Hx Hsx| |]; subst. apply (IH x Hx); auto.
    + intros H x Hx. apply (IH x Hx). intros s Hs. apply H. econstructor; eauto.
  - rewrite jvalid_obj, forallb_forall. rewrite Forall_forall in IH. split.
    + intros H s Hs. inversion Hs as [| |m' x Hx|m' k x Hx Hsx]; subst.
      * apply H in Hx. cbn in Hx. apply andb_true_iff in Hx as [Hx _]. now apply is_utf8_valid_spec.
      * pose proof (H _ Hx) as Hv. cbn in Hv. apply andb_true_iff in Hv as [_ Hv]. apply (IH _ Hx); auto.
    + intros H [k x] Hx. cbn. apply andb_true_iff. split.
      * apply is_utf8_valid_spec. apply H. econstructor; eauto.
      * apply (IH _ Hx). intros s Hs. apply H. eapply si_member; eauto.
Qed.

Lemma dump_strict_iff j : (exists t, dump EStrict j = Ok t) <-> utf8_json j.
Proof.
  rewrite <- jvalid_utf8, <- dump_strict_some. unfold dump. split; intros [t H]; exists t.
  - destruct (dump_opt EStrict j); congruence.
  - now rewrite H.
Qed.
Lemma dump_strict_throws j : dump EStrict j = Exn type_error_316 <-> ~ utf8_json j.
Proof.
  rewrite <- dump_strict_iff. unfold dump. destruct (dump_opt EStrict j) as [t|].
  - split; [discriminate|]. intros H. exfalso. apply H. eauto.
  - split; [intros _ [t H]; discriminate | reflexivity].
Qed.

(** The text produced for a value is UTF-8 under every handler. *)
Lemma digits_asc s d r : span_digits s = (d, r) -> asc d = true.
Proof. intros H. apply span_digits_spec in H as (_ & Hd & _). eapply sall_impl; [|exact Hd]. apply digit_ascii. Qed.
Lemma frac_asc f : scan_frac f = Some (f, "") -> asc f = true.
Proof.
  destruct f as [|c s]; [reflexivity|]. rewrite scan_frac_unf. destruct (Ascii.eqb_spec c ".") as [->|]; [|congruence].
  destruct (span_digits s) as [d r] eqn:E. destruct (String.eqb d ""); [discriminate|]. intros H.
  assert (d = s) as <- by congruence. unfold asc. cbn [sall]. apply digits_asc in E. unfold asc in E. now rewrite E.
Qed.
Lemma exp_asc f : scan_exp f = Some (f, "") -> asc f = true.
Proof.
  destruct f as [|c s]; [reflexivity|]. rewrite scan_exp_unf.
  destruct (Ascii.eqb c "e" || Ascii.eqb c "E") eqn:Ec; [|congruence].
  assert (Hc : (code c <? 128)%N = true).
  { apply orb_true_iff in Ec. rewrite !Ascii.eqb_eq in Ec. destruct Ec as [->| ->]; reflexivity. }
  assert (Fin : forall sg d r, span_digits d = (s, r) \/ True -> forall x, span_digits x = (d, r) -> asc sg = true -> s = sg +++ d -> asc (String c s) = true).
  { intros sg d r _ x Hx Hsg ->. unfold asc in *. cbn [sall]. rewrite Hc, sall_app, Hsg. now apply digits_asc in Hx. }
  destruct s as [|x s]; [discriminate|].
  destruct (Ascii.eqb_spec x "+") as [->|]; [|destruct (Ascii.eqb_spec x "-") as [->|]].
  all: destruct (span_digits _) as [d r] eqn:E; destruct (String.eqb d ""); [discriminate|]; intros H.
  - apply (Fin "+" d r (or_intror I) _ E); [reflexivity | congruence].
  - apply (Fin "-" d r (or_intror I) _ E); [reflexivity | congruence].
  - apply (Fin "" d r (or_intror I) _ E); [reflexivity | cbn [append] in *; congruence].
Qed.
Lemma float_utf8 l : float_lit l = true -> urun 0 l = 0.
Proof.
  intros H. unfold float_lit in H. destruct (scan_number l) as [[t q]|] eqn:E; [|discriminate]. destruct q; [|discriminate].
  apply urun_asc. pose proof (scan_number_ok _ _ _ E) as (Hs & _ & Hf & He & _).
  apply scan_number_text in E as (E & _ & Hi & _). rewrite sapp_nil_r in E. subst l.
  unfold nt_text, asc. rewrite !sall_app. apply frac_asc in Hf. apply exp_asc in He. unfold asc in *. rewrite Hf, He.
  rewrite (sall_impl _ _ _ digit_ascii Hi). destruct Hs as [->| ->]; reflexivity.
Qed.
Lemma dump_utf8 h j : forall t, dump_opt h j = Some t -> urun 0 t = 0.
Proof.
  induction j as [|b|z|f|s|l IH|m IH] using json_ind'; intros t.
  - intros [= <-]. reflexivity.
  - destruct b; intros [= <-]; reflexivity.
  - intros H. assert (t = dec_of_Z z) as -> by (cbn in H; congruence). apply urun_asc, asc_dec.
  - intros H. cbn [dump_opt] in H. destruct (float_lit f) eqn:E; [apply float_utf8 in E|]; injection H as <-; auto.
  - apply dump_str_utf8.
  - rewrite dump_arr. destruct (dump_elems h l) as [e|] eqn:E; [|discriminate]. cbn. intros [= <-].
    assert (urun 0 e = 0) as He.
    { clear -IH E. revert e E. induction IH as [|x l Hx _ IH]; intros e; [intros [= <-]; reflexivity|]. cbn [dump_elems].
      destruct (dump_opt h x) as [a|] eqn:Ea; [|discriminate]. destruct (dump_elems h l) as [b|] eqn:Eb; [|discriminate].
      intros [= <-]. apply urun_app0; [eapply Hx; eauto|]. destruct l; [reflexivity|].
      apply (urun_app0 ","); [reflexivity|]. now apply IH. }
    apply (urun_app0 "["); [reflexivity|]. apply urun_app0; [auto | reflexivity].
  - rewrite dump_obj. destruct (dump_members h m) as [e|] eqn:E; [|discriminate]. cbn. intros [= <-].
    assert (urun 0 e = 0) as He.
    { clear -IH E. revert e E. induction IH as [|[k x] m Hx _ IH]; intros e; [intros [= <-]; reflexivity|]. cbn [dump_members].
      destruct (dump_str h k) as [kk|] eqn:Ek; [|discriminate].
      destruct (dump_opt h x) as [a|] eqn:Ea; [|discriminate]. destruct (dump_members h m) as [b|] eqn:Eb; [|discriminate].
      intros [= <-]. apply urun_app0; [eapply dump_str_utf8; eauto|]. apply (urun_app0 ":"); [reflexivity|].
      apply urun_app0; [eapply Hx; eauto|]. destruct m; [reflexivity|].
      apply (urun_app0 ","); [reflexivity|]. now apply IH. }
    apply (urun_app0 "{"); [reflexivity|]. apply urun_app0; [auto | reflexivity].
Qed.
Lemma dump_is_utf8 h j t : dump h j = Ok t -> utf8_text t.
Proof.
  intros H. apply dump_ok, dump_utf8 in H. apply is_utf8_valid_spec. rewrite is_utf8_valid_urun, H. reflexivity.
Qed.
Lemma dump_lenient h j : h <> EStrict -> exists t, dump h j = Ok t.
Proof. intros H. destruct (dump_total h j H) as [t Ht]. exists t. now apply dump_ok. Qed.
Lemma dump_same h j t : dump EStrict j = Ok t -> dump h j = Ok t.
Proof. rewrite !dump_ok. apply dump_handler. Qed.

(** All four JSON parts of a message. *)
Definition base_parts (b : xbase) : list json := [m_header b; m_parent_header b; m_metadata b; m_content b].
Lemma base_serialize_strict c a b :
  (exists w, base_serialize c a EStrict b = Ok w) \/ base_serialize c a EStrict b = Exn type_error_316.
Proof.
  unfold base_serialize, dump.
  destruct (dump_opt EStrict (m_header b)); cbn; auto. destruct (dump_opt EStrict (m_parent_header b)); cbn; auto.
  destruct (dump_opt EStrict (m_metadata b)); cbn; auto. destruct (dump_opt EStrict (m_content b)); cbn; eauto.
Qed.
Lemma base_serialize_strict_ok c a b :
  (exists w, base_serialize c a EStrict b = Ok w) <-> Forall utf8_json (base_parts b).
Proof.
  unfold base_parts. split.
  - intros [w H]. unfold base_serialize in H.
    destruct (dump EStrict (m_header b)) eqn:E1; try discriminate. destruct (dump EStrict (m_parent_header b)) eqn:E2; try discriminate.
    destruct (dump EStrict (m_metadata b)) eqn:E3; try discriminate. destruct (dump EStrict (m_content b)) eqn:E4; try discriminate.
    repeat constructor; apply dump_strict_iff; eauto.
  - intros H. repeat match goal with H : Forall _ (_ :: _) |- _ => inversion H; clear H; subst end.
    repeat match goal with H : utf8_json _ |- _ => apply dump_strict_iff in H as [? H] end.
    unfold base_serialize. repeat match goal with H : dump _ _ = _ |- _ => rewrite H; clear H end. cbn. eauto.
Qed.
Lemma msg_serialize_strict c a m :
  ((exists w, serialize c a EStrict m = Ok w) <-> Forall utf8_json (base_parts (m_base m))) /\
  (serialize c a EStrict m = Exn type_error_316 <-> ~ Forall utf8_json (base_parts (m_base m))).
Proof.
  rewrite <- (base_serialize_strict_ok c a). unfold serialize.
  destruct (base_serialize_strict c a (m_base m)) as [[w H]|H]; rewrite H; cbn [bind].
  - split; split; intros X; try discriminate; eauto. exfalso; eauto.
  - split; split; intros X; auto; try (destruct X; discriminate). intros [? ?]; discriminate.
Qed.
Lemma msg_serialize_lenient c a h m : h <> EStrict ->
  exists sg h' p' m' t', serialize c a h m = Ok (m_ids m ++ DELIMITER :: sg :: h' :: p' :: m' :: t' :: m_buffers (m_base m))%list /\
    Forall utf8_text [h'; p'; m'; t'].
Proof.
  intros H. unfold serialize, base_serialize.
  destruct (dump_lenient h (m_header (m_base m)) H) as [t1 E1]. destruct (dump_lenient h (m_parent_header (m_base m)) H) as [t2 E2].
  destruct (dump_lenient h (m_metadata (m_base m)) H) as [t3 E3]. destruct (dump_lenient h (m_content (m_base m)) H) as [t4 E4].
  rewrite E1, E2, E3, E4. cbn [bind app]. do 5 eexists. split; [reflexivity|].
  repeat constructor; eapply dump_is_utf8; eauto.
Qed.
Lemma msg_serialize_same c a h m w : serialize c a EStrict m = Ok w -> serialize c a h m = Ok w.
Proof.
  unfold serialize, base_serialize.
  destruct (dump EStrict (m_header (m_base m))) eqn:E1; try discriminate.
  destruct (dump EStrict (m_parent_header (m_base m))) eqn:E2; try discriminate.
  destruct (dump EStrict (m_metadata (m_base m))) eqn:E3; try discriminate.
  destruct (dump EStrict (m_content (m_base m))) eqn:E4; try discriminate.
  apply (dump_same h) in E1, E2, E3, E4. now rewrite E1, E2, E3, E4.
Qed.

(** ** Hexadecimal *)
(** Value of a lower-case hexadecimal digit. *)
Definition hex_val (c : ascii) : option N :=
  (if (48 <=? code c) && (code c <=? 57) then Some (code c - 48)
   else if (97 <=? code c) && (code c <=? 102) then Some (code c - 87) else None)%N.
(** Decoder of lower-case hexadecimal text. *)
Fixpoint unhex (s : string) : option string :=
  match s with
  | "" => Some ""
  | String a (String b r) =>
      match hex_val a, hex_val b, unhex r with
      | Some x, Some y, Some t => Some (String (chr (16 * x + y)) t)
      | _, _, _ => None
      end
  | _ => None
  end.
Lemma unhex_hex s : unhex (hex_string s) = Some s.
Proof.
  induction s as [|b s IH]; [reflexivity|]. rewrite hex_string_cons.
  assert (exists x y, hex_pair b = String x (String y "") /\
    match hex_val x, hex_val y with Some u, Some v => chr (16 * u + v) = b | _, _ => False end) as (x & y & -> & Hxy).
  { clear. pose proof (forall_bytes (fun b => match hex_pair b with
      | String x (String y "") => match hex_val x, hex_val y with Some u, Some v => Ascii.eqb (chr (16 * u + v)) b | _, _ => false end
      | _ => false end) eq_refl b) as H. cbv beta in H.
    destruct (hex_pair b) as [|x [|y [|]]]; try discriminate. exists x, y. split; auto.
    destruct (hex_val x), (hex_val y); try discriminate. now apply Ascii.eqb_eq. }
  cbn [append unhex]. rewrite IH. destruct (hex_val x), (hex_val y); try contradiction. now rewrite Hxy.
Qed.
