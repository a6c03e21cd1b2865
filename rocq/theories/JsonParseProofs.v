(** What the parser returns is well formed, finite and valid UTF-8; the rest is a suffix. *)
From Verif Require Import Base BaseFacts Json Utf8 Utf8Proofs JsonText JsonTextProofs.

(** ** Parsed strings are valid UTF-8 *)
Lemma scan_str_valid : forall N s st k r, st <= 8 -> slen s <= N -> scan_str st s = Some (k, r) -> urun st k = 0.
Proof.
  induction N as [|N IH]; intros s st k r Hst HN H; [destruct s; [discriminate|cbn in HN; lia]|].
  destruct s as [|c s]; [discriminate|]. cbn [slen] in *.
  assert (Hcons : forall p st' s', st' <= 8 -> slen s' <= slen s -> urun st p = st' ->
            cons_res p (scan_str st' s') = Some (k, r) -> urun st k = 0).
  { intros p st' s' Hst' Hl Hp Hc. unfold cons_res in *. destruct (scan_str st' s') as [[k' q']|] eqn:E; [|discriminate].
    cbn in Hc. injection Hc as <- <-. rewrite urun_app, Hp. eapply (IH s'); eauto. lia. }
  cbn [scan_str] in *.
  destruct (Nat.eqb_spec st 0) as [->|Hn0].
  - destruct (Ascii.eqb c chr_quote); [injection H as <- <-; reflexivity|].
    destruct (Ascii.eqb c chr_bs).
    + destruct s as [|e r1]; [discriminate|]. destruct (Ascii.eqb e "u").
      * destruct r1 as [|a [|b [|c' [|d r2]]]]; try discriminate.
        destruct (hex4 a b c' d) as [n|] eqn:Eh; [|discriminate].
        assert (n < 65536)%N as Hn.
        { unfold hex4 in Eh.
          assert (forall x v, hexval x = Some v -> v < 16)%N as Hv.
          { intros x v. unfold hexval. pose proof (code_lt x).
            destruct ((48 <=? code x) && _)%N eqn:?; [intros [= <-]; lia|].
            destruct ((65 <=? code x) && _)%N eqn:?; [intros [= <-]; lia|].
            destruct ((97 <=? code x) && _)%N eqn:?; [intros [= <-]; lia|discriminate]. }
          destruct (hexval a) eqn:E1; [|discriminate]. destruct (hexval b) eqn:E2; [|discriminate].
          destruct (hexval c') eqn:E3; [|discriminate]. destruct (hexval d) eqn:E4; [|discriminate].
          apply Hv in E1, E2, E3, E4.
          match type of Eh with Some ?e = _ => assert (n = e) as -> by congruence end. lia. }
        destruct ((55296 <=? n) && _)%N eqn:Er.
        -- destruct r2 as [|bs [|u [|a2 [|b2 [|c2 [|d2 r3]]]]]]; try discriminate.
           destruct (Ascii.eqb bs chr_bs && Ascii.eqb u "u"); [|discriminate]. destruct (hex4 a2 b2 c2 d2) as [n0|]; [|discriminate].
           destruct ((56320 <=? n0) && _)%N eqn:Er2; [|discriminate].
           eapply Hcons; [| | |exact H]; [lia|cbn; lia|]. apply urun_encode. unfold scalar. lia.
        -- destruct ((56320 <=? n) && _)%N eqn:Er2; [discriminate|].
           eapply Hcons; [| | |exact H]; [lia|cbn; lia|]. apply urun_encode. unfold scalar. lia.
      * destruct (escape_of e) as [x|] eqn:Ee; [|discriminate]. eapply Hcons; [| | |exact H]; [lia|cbn; lia|].
        assert (code x < 128)%N as Hx.
        { set (P := fun e => match escape_of e with Some x => (code x <? 128)%N | None => true end).
          assert (P e = true) as Hp by (apply forall_bytes; vm_compute; reflexivity).
          unfold P in Hp. rewrite Ee in Hp. lia. }
        cbn [urun]. now apply nxt0_ascii.
    + destruct (_ <? _)%N; [discriminate|].
      pose proof (utf8_next_le 0 c Hst) as Hle. pose proof (utf8_next_nxt 0 c Hst) as Hx.
      destruct (utf8_next 0 c) as [|[|st']] eqn:E; try discriminate;
        (eapply Hcons; [| | |exact H]; [lia|lia|cbn [urun]; congruence]).
  - pose proof (utf8_next_le st c Hst) as Hle. pose proof (utf8_next_nxt st c Hst) as Hx.
    destruct (utf8_next st c) as [|[|st']] eqn:E; try discriminate;
        (eapply Hcons; [| | |exact H]; [lia|lia|cbn [urun]; congruence]).
Qed.
Lemma scan_str_utf8 s k r : scan_str 0 s = Some (k, r) -> is_utf8_valid k = true.
Proof.
  intros H. rewrite is_utf8_valid_urun, Nat.eqb_eq. eapply (scan_str_valid (slen s)); eauto. lia.
Qed.

(** ** Number tokens scan back to themselves *)
Definition tok_ok (t : numtok) : Prop :=
  (nt_sign t = "-" \/ nt_sign t = "") /\ scan_int (nt_int t) = Some (nt_int t, "") /\
  scan_frac (nt_frac t) = Some (nt_frac t, "") /\ scan_exp (nt_exp t) = Some (nt_exp t, "") /\
  (nt_frac t = "" \/ exists d, nt_frac t = String "." d) /\
  (nt_exp t = "" \/ exists c d, nt_exp t = String c d /\ (c = "e"%char \/ c = "E"%char)).
Lemma span_digits_self s d r : span_digits s = (d, r) -> span_digits d = (d, "").
Proof.
  intros H. apply span_digits_spec in H as (_ & Hd & _). rewrite <- (sapp_nil_r d) at 1. now apply span_digits_app.
Qed.
Lemma scan_int_self s i q : scan_int s = Some (i, q) -> scan_int i = Some (i, "").
Proof.
  destruct s as [|c s]; [discriminate|]. rewrite scan_int_unf.
  destruct (Ascii.eqb_spec c "0") as [->|Hc]; [now intros [= <- <-]|].
  destruct (is_digit c) eqn:E; [|discriminate]. intros H0.
  assert (span_digits (String c s) = (i, q)) as H by congruence. clear H0. pose proof (span_digits_self _ _ _ H) as Hs.
  cbn [span_digits] in H. rewrite E in H. destruct (span_digits s) as [d0 r0]. injection H as <- <-.
  rewrite scan_int_unf. destruct (Ascii.eqb_spec c "0"); [congruence|]. rewrite E. now rewrite Hs.
Qed.
Lemma scan_frac_self s f q : scan_frac s = Some (f, q) -> scan_frac f = Some (f, "") /\ (f = "" \/ exists d, f = String "." d).
Proof.
  destruct s as [|c s]; [intros [= <- <-]; auto|]. rewrite scan_frac_unf.
  destruct (Ascii.eqb_spec c ".") as [->|]; [|intros [= <- <-]; auto].
  destruct (span_digits s) as [d r'] eqn:E. destruct (String.eqb d "") eqn:Ed; [discriminate|]. intros [= <- <-].
  rewrite scan_frac_unf. change (Ascii.eqb "." ".") with true. cbv iota. rewrite (span_digits_self _ _ _ E), Ed. eauto.
Qed.
Lemma scan_exp_self s f q : scan_exp s = Some (f, q) ->
  scan_exp f = Some (f, "") /\ (f = "" \/ exists c d, f = String c d /\ (c = "e"%char \/ c = "E"%char)).
Proof.
  destruct s as [|c s]; [intros [= <- <-]; auto|]. rewrite scan_exp_unf.
  destruct (Ascii.eqb c "e" || Ascii.eqb c "E") eqn:Ec; [|intros [= <- <-]; auto].
  assert (c = "e"%char \/ c = "E"%char) as Hc by (apply orb_true_iff in Ec; now rewrite !Ascii.eqb_eq in Ec).
  destruct s as [|x s]; [discriminate|].
  destruct (Ascii.eqb_spec x "+") as [->|Hp]; [|destruct (Ascii.eqb_spec x "-") as [->|Hm]].
  - destruct (span_digits s) as [d r'] eqn:E. destruct (String.eqb d "") eqn:Ed; [discriminate|]. intros [= <- <-].
    rewrite scan_exp_unf, Ec. cbn [append]. change (Ascii.eqb "+" "+") with true. cbv iota.
    rewrite (span_digits_self _ _ _ E), Ed. split; auto. right. eauto.
  - destruct (span_digits s) as [d r'] eqn:E. destruct (String.eqb d "") eqn:Ed; [discriminate|]. intros [= <- <-].
    rewrite scan_exp_unf, Ec. cbn [append]. change (Ascii.eqb "-" "+") with false. change (Ascii.eqb "-" "-") with true. cbv iota.
    rewrite (span_digits_self _ _ _ E), Ed. split; auto. right. eauto.
  - destruct (span_digits (String x s)) as [d r'] eqn:E. destruct (String.eqb d "") eqn:Ed; [discriminate|]. intros [= <- <-].
    cbn [append]. pose proof (span_digits_self _ _ _ E) as Hs. pose proof (span_digits_spec _ _ _ E) as (Hx & _).
    split; [|right; eauto]. rewrite scan_exp_unf, Ec.
    destruct d as [|y d]; [discriminate|]. cbn in Hx. injection Hx as <- Hx.
    apply Ascii.eqb_neq in Hp, Hm. rewrite Hp, Hm. cbv iota. rewrite Hs, Ed. reflexivity.
Qed.
Lemma scan_number_ok s t q : scan_number s = Some (t, q) -> tok_ok t.
Proof.
  unfold scan_number. intros H.
  destruct (scan_sign s) as [sg r0] eqn:E0.
  destruct (scan_int r0) as [[i r1]|] eqn:E1; [|discriminate].
  destruct (scan_frac r1) as [[f r2]|] eqn:E2; [|discriminate].
  destruct (scan_exp r2) as [[e r3]|] eqn:E3; [|discriminate]. injection H as <- <-.
  apply scan_sign_text in E0 as [_ E0]. apply scan_int_self in E1. apply scan_frac_self in E2. apply scan_exp_self in E3.
  unfold tok_ok. cbn. tauto.
Qed.
Lemma tok_scan t : tok_ok t -> scan_number (nt_text t) = Some (t, "").
Proof.
  intros (Hs & Hi & Hf & He & Hf' & He'). unfold nt_text, scan_number.
  assert (Hi0 : exists c i, nt_int t = String c i /\ is_digit c = true).
  { apply scan_int_text in Hi as (_ & Hne & Hd). destruct (nt_int t) as [|c i]; [congruence|].
    cbn in Hd. apply andb_true_iff in Hd as [Hd _]. eauto. }
  assert (Hsg : scan_sign (nt_sign t +++ nt_int t +++ nt_frac t +++ nt_exp t) = (nt_sign t, nt_int t +++ nt_frac t +++ nt_exp t)).
  { destruct Hs as [->| ->]; [reflexivity|]. destruct Hi0 as (c & i & -> & Hc). cbn [append].
    clear -Hc. destruct c as [[] [] [] [] [] [] [] []]; cbn in *; auto; discriminate. }
  rewrite Hsg.
  assert (Hn : nodigit (nt_frac t +++ nt_exp t) = true).
  { destruct Hf' as [->|[d ->]]; [|reflexivity]. destruct He' as [->|(c & d & -> & [->| ->])]; reflexivity. }
  rewrite (scan_int_ext _ _ _ (nt_frac t +++ nt_exp t) Hi) by auto. cbn [append].
  assert (scan_frac (nt_frac t +++ nt_exp t) = Some (nt_frac t, nt_exp t)) as ->.
  { destruct Hf' as [Hf0|[d Hf0]].
    - rewrite Hf0. cbn [append]. destruct He' as [->|(c & d & -> & [->| ->])]; reflexivity.
    - rewrite Hf0 in Hf |- *. cbn [append]. rewrite scan_frac_unf in Hf |- *. change (Ascii.eqb "." ".") with true in *. cbv iota in *.
      destruct (span_digits d) as [x y] eqn:E. destruct (String.eqb x "") eqn:Ex; [discriminate|]. injection Hf as -> ->.
      rewrite (span_digits_ext _ _ _ (nt_exp t) E); [now rewrite Ex|]. right.
      destruct He' as [->|(c & d' & -> & [->| ->])]; reflexivity. }
  rewrite He. destruct t; reflexivity.
Qed.
Lemma num_value_good t v : tok_ok t -> num_value t = Some v -> jgood v = true /\ jvalid v = true.
Proof.
  intros Ht. unfold num_value. destruct (nt_is_float t) eqn:Ef.
  - destruct (nt_finite t) eqn:En; [|discriminate]. intros [= <-]. unfold jgood. cbn [jwf jfinite jvalid].
    unfold float_lit. rewrite (tok_scan _ Ht), Ef, En. auto.
  - destruct (_ && _)%Z eqn:Er.
    + intros [= <-]. unfold jgood. cbn [jwf jfinite jvalid]. rewrite Er. auto.
    + set (t' := {| nt_sign := _; nt_int := _; nt_frac := _; nt_exp := _ |}).
      destruct (nt_finite t') eqn:En; [|discriminate]. intros [= <-]. unfold jgood. cbn [jwf jfinite jvalid].
      assert (tok_ok t') as Ht'.
      { destruct Ht as (H1 & H2 & H3 & H4 & H5 & H6). unfold tok_ok, t'; cbn. repeat split; auto. right. eauto. }
      unfold float_lit. rewrite (tok_scan _ Ht'), En. auto.
Qed.

(** ** Parsed values are good *)
Definition good_all (m : list (string * json)) : Prop :=
  msorted m = true /\ Forall (fun p => is_utf8_valid (fst p) = true /\ jgood (snd p) = true /\ jvalid (snd p) = true) m.
Lemma good_mset k v m : is_utf8_valid k = true -> jgood v = true -> jvalid v = true -> good_all m -> good_all (mset k v m).
Proof.
  intros Hk Hg Hv [Hs Hm]. split; [now apply mset_sorted|]. clear Hs.
  induction Hm as [|[k' v'] m H Hm IH]; cbn [mset]; [repeat constructor; auto|].
  destruct (String.compare k k'); constructor; auto.
Qed.
Lemma good_obj m : good_all m -> jgood (JObj m) = true /\ jvalid (JObj m) = true.
Proof.
  intros [Hs Hm]. unfold jgood. rewrite jwf_obj, jfinite_obj, jvalid_obj. unfold jwf_members. rewrite Hs.
  rewrite Forall_forall in Hm. split.
  - apply andb_true_iff; split; cbn [andb]; apply forallb_forall; intros x Hx; apply Hm in Hx as (_ & Hx & _);
      unfold jgood in Hx; now apply andb_true_iff in Hx as [? ?].
  - apply forallb_forall. intros x Hx. apply Hm in Hx as (-> & _ & ->). reflexivity.
Qed.
Lemma good_arr l : Forall (fun v => jgood v = true /\ jvalid v = true) l -> jgood (JArr l) = true /\ jvalid (JArr l) = true.
Proof.
  intros Hm. unfold jgood. rewrite jwf_arr, jfinite_arr, jvalid_arr. unfold jwf_all.
  rewrite Forall_forall in Hm. split.
  - apply andb_true_iff; split; apply forallb_forall; intros x Hx; apply Hm in Hx as (Hx & _);
      unfold jgood in Hx; now apply andb_true_iff in Hx as [? ?].
  - apply forallb_forall. intros x Hx. now apply Hm in Hx as (_ & ->).
Qed.
Lemma parse_good_all n :
  (forall s j r, pval n s = Some (j, r) -> jgood j = true /\ jvalid j = true) /\
  (forall s l r, pelems n s = Some (l, r) -> Forall (fun v => jgood v = true /\ jvalid v = true) l) /\
  (forall acc s l r, good_all acc -> pmembers n acc s = Some (l, r) -> good_all l).
Proof.
  induction n as [|n (IHv & IHe & IHm)]; [repeat split; discriminate|]. split; [|split].
  - intros s j r. cbn [pval]. destruct (skip_ws s) as [|c s1]; [discriminate|].
    destruct (Ascii.eqb c "{").
    { intros H. assert (j = JObj [] \/ exists l, pmembers n [] s1 = Some (l, r) /\ j = JObj l) as [->|(l & Hl & ->)].
      { destruct (skip_ws s1) as [|c1 s2]; [|destruct c1 as [[] [] [] [] [] [] [] []]]; try (left; injection H as <- <-; reflexivity);
          right; destruct (pmembers n [] s1) as [[l q]|]; try discriminate; injection H as <- <-; eauto. }
      - split; reflexivity.
      - apply good_obj. eapply IHm; eauto. split; [reflexivity|constructor]. }
    destruct (Ascii.eqb c "[").
    { intros H. assert (j = JArr [] \/ exists l, pelems n s1 = Some (l, r) /\ j = JArr l) as [->|(l & Hl & ->)].
      { destruct (skip_ws s1) as [|c1 s2]; [|destruct c1 as [[] [] [] [] [] [] [] []]]; try (left; injection H as <- <-; reflexivity);
          right; destruct (pelems n s1) as [[l q]|]; try discriminate; injection H as <- <-; eauto. }
      - split; reflexivity.
      - apply good_arr. eapply IHe; eauto. }
    destruct (Ascii.eqb c chr_quote).
    { destruct (scan_str 0 s1) as [[k q]|] eqn:E; [|discriminate]. cbn [option_map fst snd]. intros [= <- <-].
      apply scan_str_utf8 in E. split; [reflexivity|exact E]. }
    destruct (Ascii.eqb c "t").
    { destruct (strip "true" (String c s1)) as [q|] eqn:E; [|discriminate]. cbn [option_map]. intros [= <- <-]. split; reflexivity. }
    destruct (Ascii.eqb c "f").
    { destruct (strip "false" (String c s1)) as [q|] eqn:E; [|discriminate]. cbn [option_map]. intros [= <- <-]. split; reflexivity. }
    destruct (Ascii.eqb c "n").
    { destruct (strip "null" (String c s1)) as [q|] eqn:E; [|discriminate]. cbn [option_map]. intros [= <- <-]. split; reflexivity. }
    destruct (scan_number (String c s1)) as [[t q]|] eqn:E; [|discriminate].
    destruct (num_value t) as [v|] eqn:Ev; [|discriminate]. cbn [option_map]. intros [= <- <-].
    eapply num_value_good; eauto. eapply scan_number_ok; eauto.
  - intros s l r. cbn [pelems]. destruct (pval n s) as [[v r1]|] eqn:E; [|discriminate]. apply IHv in E.
    destruct (skip_ws r1) as [|c r2]; [discriminate|].
    destruct c as [[] [] [] [] [] [] [] []]; try discriminate.
    + intros [= <- <-]. auto.
    + destruct (pelems n r2) as [[l2 q]|] eqn:E2; [|discriminate]. cbn [option_map fst snd]. intros [= <- <-]. apply IHe in E2. auto.
  - intros acc s l r Hacc. cbn [pmembers]. destruct (skip_ws s) as [|q r0]; [discriminate|].
    destruct (Ascii.eqb q chr_quote); [|discriminate]. destruct (scan_str 0 r0) as [[k r1]|] eqn:E; [|discriminate].
    apply scan_str_utf8 in E.
    destruct (skip_ws r1) as [|c r2]; [discriminate|].
    destruct c as [[] [] [] [] [] [] [] []]; try discriminate.
    destruct (pval n r2) as [[v r3]|] eqn:E2; [|discriminate]. apply IHv in E2 as [Hg Hv].
    destruct (skip_ws r3) as [|c r4]; [discriminate|].
    destruct c as [[] [] [] [] [] [] [] []]; try discriminate.
    + intros [= <- <-]. now apply good_mset.
    + intros H. eapply IHm; [|exact H]. now apply good_mset.
Qed.
Lemma parse_good s j : parse s = Ok j -> jgood j = true /\ jvalid j = true.
Proof.
  unfold parse, parse_opt. destruct (pval _ _) as [[j' r]|] eqn:E; [|discriminate].
  destruct (at_end r); [|discriminate]. intros [= ->]. eapply parse_good_all; eauto.
Qed.

(** ** What is left is a suffix *)
Lemma skip_ws_suffix s : exists w, s = w +++ skip_ws s /\ sall is_ws w = true.
Proof.
  induction s as [|c s (w & E & Hw)]; [exists ""; auto|]. cbn [skip_ws]. destruct (is_ws c) eqn:Ec.
  - exists (String c w). cbn. rewrite Ec. split; [congruence|auto].
  - exists "". auto.
Qed.
Lemma strip_spec p s r : strip p s = Some r -> s = p +++ r.
Proof.
  revert s; induction p as [|a p IH]; intros s; cbn; [now intros [= ->]|].
  destruct s as [|b s]; [discriminate|]. destruct (Ascii.eqb_spec a b) as [->|]; [|discriminate].
  intros H. apply IH in H as ->. reflexivity.
Qed.
Definition suffix (r s : string) : Prop := exists p, s = p +++ r.
Lemma suffix_refl s : suffix s s. Proof. now exists "". Qed.
Lemma suffix_trans a b c : suffix a b -> suffix b c -> suffix a c.
Proof. intros [p ->] [q ->]. exists (q +++ p). now rewrite sapp_assoc. Qed.
Lemma suffix_cons a b c : suffix a b -> suffix a (String c b).
Proof. intros [p ->]. now exists (String c p). Qed.
Lemma suffix_ws s r : suffix r (skip_ws s) -> suffix r s.
Proof. intros H. eapply suffix_trans; eauto. destruct (skip_ws_suffix s) as (w & E & _). now exists w. Qed.
Lemma suffix_ws_cons s c r q : skip_ws s = String c r -> suffix q r -> suffix q s.
Proof. intros E H. apply suffix_ws. rewrite E. now apply suffix_cons. Qed.
Lemma scan_str_suffix : forall N s st k r, slen s <= N -> scan_str st s = Some (k, r) -> suffix r s.
Proof.
  induction N as [|N IH]; intros s st k r HN H; [destruct s; [discriminate|cbn in HN; lia]|].
  destruct s as [|c s]; [discriminate|]. cbn [slen] in *.
  assert (Hcons : forall p st' s', slen s' <= slen s -> cons_res p (scan_str st' s') = Some (k, r) -> suffix r s').
  { intros p st' s' Hl Hc. unfold cons_res in *. destruct (scan_str st' s') as [[k' q']|] eqn:E; [|discriminate].
    cbn in Hc. injection Hc as <- <-. eapply (IH s'); eauto. lia. }
  cbn [scan_str] in *.
  destruct (Nat.eqb st 0).
  - destruct (Ascii.eqb c chr_quote); [injection H as <- <-; apply suffix_cons, suffix_refl|].
    destruct (Ascii.eqb c chr_bs).
    + destruct s as [|e r1]; [discriminate|]. destruct (Ascii.eqb e "u").
      * destruct r1 as [|a [|b [|c' [|d r2]]]]; try discriminate.
        destruct (hex4 a b c' d); [|discriminate].
        destruct ((55296 <=? n) && _)%N.
        -- destruct r2 as [|bs [|u [|a2 [|b2 [|c2 [|d2 r3]]]]]]; try discriminate.
           destruct (Ascii.eqb bs chr_bs && Ascii.eqb u "u"); [|discriminate]. destruct (hex4 a2 b2 c2 d2); [|discriminate].
           destruct ((56320 <=? n0) && _)%N; [|discriminate]. do 12 apply suffix_cons. eapply Hcons; [|exact H]. cbn; lia.
        -- destruct ((56320 <=? n) && _)%N; [discriminate|]. do 6 apply suffix_cons. eapply Hcons; [|exact H]. cbn; lia.
      * destruct (escape_of e); [|discriminate]. do 2 apply suffix_cons. eapply Hcons; [|exact H]. cbn; lia.
    + destruct (_ <? _)%N; [discriminate|].
      destruct (utf8_next 0 c) as [|[|]]; try discriminate; (apply suffix_cons; eapply Hcons; [|exact H]; lia).
  - destruct (utf8_next st c) as [|[|]]; try discriminate; (apply suffix_cons; eapply Hcons; [|exact H]; lia).
Qed.
Lemma suffix_all n :
  (forall s j r, pval n s = Some (j, r) -> suffix r s) /\
  (forall s l r, pelems n s = Some (l, r) -> suffix r s) /\
  (forall acc s l r, pmembers n acc s = Some (l, r) -> suffix r s).
Proof.
  induction n as [|n (IHv & IHe & IHm)]; [repeat split; discriminate|]. split; [|split].
  - intros s j r. cbn [pval]. destruct (skip_ws s) as [|c s1] eqn:E0; [discriminate|].
    intros H. apply suffix_ws. rewrite E0. revert H. clear E0.
    destruct (Ascii.eqb c "{").
    { intros H. apply suffix_cons. assert ((exists r', skip_ws s1 = String "}" r' /\ r = r') \/ exists l, pmembers n [] s1 = Some (l, r)) as [(r' & E & ->)|[l Hx]].
      { destruct (skip_ws s1) as [|c1 s2]; [|destruct c1 as [[] [] [] [] [] [] [] []]]; try (left; injection H as <- <-; eauto; fail);
          right; destruct (pmembers n [] s1) as [[l q]|]; try discriminate; injection H as _ <-; eauto. }
      - eapply suffix_ws_cons; eauto using suffix_refl.
      - eapply IHm; eauto. }
    destruct (Ascii.eqb c "[").
    { intros H. apply suffix_cons. assert ((exists r', skip_ws s1 = String "]" r' /\ r = r') \/ exists l, pelems n s1 = Some (l, r)) as [(r' & E & ->)|[l Hx]].
      { destruct (skip_ws s1) as [|c1 s2]; [|destruct c1 as [[] [] [] [] [] [] [] []]]; try (left; injection H as <- <-; eauto; fail);
          right; destruct (pelems n s1) as [[l q]|]; try discriminate; injection H as _ <-; eauto. }
      - eapply suffix_ws_cons; eauto using suffix_refl.
      - eapply IHe; eauto. }
    destruct (Ascii.eqb c chr_quote).
    { destruct (scan_str 0 s1) as [[k q]|] eqn:E; [|discriminate]. cbn. intros [= <- <-].
      apply suffix_cons. apply (scan_str_suffix (slen s1)) in E; auto. }
    destruct (Ascii.eqb c "t").
    { destruct (strip "true" (String c s1)) as [q|] eqn:E; [|discriminate]. cbn [option_map]. intros [= <- <-]. apply strip_spec in E. rewrite E. now eexists. }
    destruct (Ascii.eqb c "f").
    { destruct (strip "false" (String c s1)) as [q|] eqn:E; [|discriminate]. cbn [option_map]. intros [= <- <-]. apply strip_spec in E. rewrite E. now eexists. }
    destruct (Ascii.eqb c "n").
    { destruct (strip "null" (String c s1)) as [q|] eqn:E; [|discriminate]. cbn [option_map]. intros [= <- <-]. apply strip_spec in E. rewrite E. now eexists. }
    destruct (scan_number (String c s1)) as [[t q]|] eqn:E; [|discriminate].
    destruct (num_value t); [|discriminate]. cbn [option_map]. intros [= <- <-]. apply scan_number_text in E as [E _]. rewrite E. now eexists.
  - intros s l r. cbn [pelems]. destruct (pval n s) as [[v r1]|] eqn:E; [|discriminate]. apply IHv in E.
    destruct (skip_ws r1) as [|c r2] eqn:E1; [discriminate|].
    destruct c as [[] [] [] [] [] [] [] []]; try discriminate; intros H;
      (eapply suffix_trans; [|exact E]); eapply suffix_ws_cons; try exact E1.
    + injection H as <- <-. apply suffix_refl.
    + destruct (pelems n r2) as [[l2 q]|] eqn:E2; [|discriminate]. cbn in H. injection H as <- <-. eapply IHe; eauto.
  - intros acc s l r. cbn [pmembers]. destruct (skip_ws s) as [|q r0] eqn:E0; [discriminate|].
    destruct (Ascii.eqb q chr_quote); [|discriminate]. destruct (scan_str 0 r0) as [[k r1]|] eqn:E; [|discriminate].
    apply (scan_str_suffix (slen r0)) in E; [|auto].
    destruct (skip_ws r1) as [|c r2] eqn:E1; [discriminate|].
    destruct c as [[] [] [] [] [] [] [] []]; try discriminate.
    destruct (pval n r2) as [[v r3]|] eqn:E2; [|discriminate]. apply IHv in E2.
    destruct (skip_ws r3) as [|c r4] eqn:E3; [discriminate|].
    intros H. eapply suffix_ws_cons; [exact E0|]. eapply suffix_trans; [|exact E]. eapply suffix_ws_cons; [exact E1|].
    eapply suffix_trans; [|exact E2]. eapply suffix_ws_cons; [exact E3|].
    destruct c as [[] [] [] [] [] [] [] []]; try discriminate.
    + injection H as <- <-. apply suffix_refl.
    + eapply IHm; eauto.
Qed.
Lemma pval_suffix n s j r : pval n s = Some (j, r) -> suffix r s.
Proof. apply suffix_all. Qed.

(** ** Object texts form a prefix code (up to white space) *)
Definition no_nul (s : string) : bool := sall (fun c => negb (code c =? 0)%N) s.
(** A text without byte order mark whose JSON value is an object. *)
Definition plain (s : string) : bool := no_nul s && match s with String c _ => negb (code c =? 239)%N | "" => true end.

Lemma pval_skip n s : pval n (skip_ws s) = pval n s.
Proof.
  destruct n as [|n]; [reflexivity|]. cbn [pval].
  assert (skip_ws (skip_ws s) = skip_ws s) as ->; [|reflexivity].
  induction s as [|c s IH]; cbn; auto. destruct (is_ws c) eqn:E; auto. cbn. now rewrite E.
Qed.
Lemma pval_more n m s x : pval n s = Some x -> n <= m -> pval m s = Some x.
Proof.
  (* the number of steps needed is bounded by [fuel_for s] *)
  assert (mono : forall n,
     (forall s x, pval n s = Some x -> pval (S n) s = Some x) /\
     (forall s x, pelems n s = Some x -> pelems (S n) s = Some x) /\
     (forall acc s x, pmembers n acc s = Some x -> pmembers (S n) acc s = Some x)).
  { clear. induction n as [|n (IHv & IHe & IHm)]; [repeat split; discriminate|].
    set (n1 := S n) in *. split; [|split].
    - intros s x. unfold n1 at 1. cbn [pval]. destruct (skip_ws s) as [|c s1]; auto.
      destruct (Ascii.eqb c "{").
      { destruct (skip_ws s1) as [|c1 s2]; [|destruct c1 as [[] [] [] [] [] [] [] []]]; auto;
          (destruct (pmembers n [] s1) as [y|] eqn:E; [rewrite (IHm _ _ _ E); auto|discriminate]). }
      destruct (Ascii.eqb c "[").
      { destruct (skip_ws s1) as [|c1 s2]; [|destruct c1 as [[] [] [] [] [] [] [] []]]; auto;
          (destruct (pelems n s1) as [y|] eqn:E; [rewrite (IHe _ _ E); auto|discriminate]). }
      auto.
    - intros s x. unfold n1 at 1. cbn [pelems]. destruct (pval n s) as [[v r]|] eqn:E; [|discriminate].
      rewrite (IHv _ _ E). destruct (skip_ws r) as [|c r1]; auto.
      destruct c as [[] [] [] [] [] [] [] []]; auto.
      destruct (pelems n r1) as [y|] eqn:E2; [rewrite (IHe _ _ E2); auto|discriminate].
    - intros acc s x. unfold n1 at 1. cbn [pmembers]. destruct (skip_ws s) as [|q r0]; auto.
      destruct (Ascii.eqb q chr_quote); auto. destruct (scan_str 0 r0) as [[k r1]|]; auto.
      destruct (skip_ws r1) as [|c r2]; auto. destruct c as [[] [] [] [] [] [] [] []]; auto.
      destruct (pval n r2) as [[v r3]|] eqn:E2; [rewrite (IHv _ _ E2)|discriminate].
      destruct (skip_ws r3) as [|c r4]; auto. destruct c as [[] [] [] [] [] [] [] []]; auto. }
  intros H Hm. induction Hm as [|m Hm IH]; auto. now apply mono.
Qed.
Lemma skip_ws_all_ws w s : sall is_ws w = true -> skip_ws (w +++ s) = skip_ws s.
Proof. induction w as [|c w IH]; cbn; auto. rewrite andb_true_iff. intros [-> H]. auto. Qed.

Lemma sall_suffix p s r : suffix r s -> sall p s = true -> sall p r = true.
Proof. intros [q ->]. rewrite sall_app, andb_true_iff. tauto. Qed.

(** A plain object text followed by anything: the parser finds the object and stops at the
    white space that follows it. *)
Lemma plain_obj_ext s m x : plain s = true -> parse_opt s = Some (JObj m) ->
  exists n w, sall is_ws w = true /\ pval n (s +++ x) = Some (JObj m, w +++ x).
Proof.
  unfold plain, parse_opt. rewrite andb_true_iff. intros [Hn Hb].
  assert (skip_bom s = s) as ->.
  { unfold skip_bom. destruct s as [|c s]; [reflexivity|]. cbn [strip bom].
    destruct (Ascii.eqb_spec (chr 239) c) as [<-|]; auto. discriminate. }
  destruct (pval (fuel_for s) s) as [[j r]|] eqn:E; [|discriminate].
  destruct (at_end r) eqn:Ea; [|discriminate]. intros [= ->].
  exists (fuel_for s), r. split.
  - pose proof (sall_suffix _ _ _ (pval_suffix _ _ _ _ E) Hn) as Hr. unfold at_end in Ea.
    destruct (skip_ws_suffix r) as (w & Er & Hw). destruct (skip_ws r) as [|c q].
    + rewrite sapp_nil_r in Er. now subst.
    + rewrite Er, sall_app in Hr. cbn in Hr. rewrite Ea in Hr. cbn in Hr. rewrite andb_false_r in Hr. discriminate.
  - apply pval_ext; auto.
Qed.

(** Two concatenations of plain object texts that are equal up to leading white space agree
    on the values. *)
Lemma obj_texts_inj l1 l2 : forall v1 v2 w1 w2,
  sall is_ws w1 = true -> sall is_ws w2 = true ->
  Forall2 (fun s m => plain s = true /\ parse_opt s = Some (JObj m)) l1 v1 ->
  Forall2 (fun s m => plain s = true /\ parse_opt s = Some (JObj m)) l2 v2 ->
  List.length l1 = List.length l2 ->
  skip_ws (w1 +++ sconcat l1) = skip_ws (w2 +++ sconcat l2) -> v1 = v2.
Proof.
  revert l2; induction l1 as [|s1 l1 IH]; intros [|s2 l2] v1 v2 w1 w2 Hw1 Hw2 F1 F2 Hl He; try discriminate.
  - inversion F1; inversion F2; auto.
  - inversion F1 as [|? m1 ? v1' [P1 E1] F1']; subst. inversion F2 as [|? m2 ? v2' [P2 E2] F2']; subst.
    cbn [sconcat] in He. rewrite (skip_ws_all_ws w1), (skip_ws_all_ws w2) in He by auto.
    destruct (plain_obj_ext s1 m1 (sconcat l1) P1 E1) as (n1 & u1 & U1 & X1).
    destruct (plain_obj_ext s2 m2 (sconcat l2) P2 E2) as (n2 & u2 & U2 & X2).
    rewrite <- pval_skip in X1, X2. rewrite He in X1.
    apply (pval_more _ (n1 + n2)) in X1; [|lia]. apply (pval_more _ (n1 + n2)) in X2; [|lia].
    rewrite X1 in X2. injection X2 as -> X2. f_equal.
    eapply (IH l2 v1' v2' u1 u2); eauto. now rewrite X2.
Qed.
