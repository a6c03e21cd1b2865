(** Round trip and framing properties of the JSON text model. *)
From Verif Require Import Base BaseFacts Json Utf8 Utf8Proofs JsonText.
From Coq Require Import Decimal DecimalString DecimalFacts DecimalN DecimalZ DecimalPos.

(** ** Unfolding lemmas *)
Fixpoint dump_elems (h : ehandler) (l : list json) : option string :=
  match l with
  | [] => Some ""
  | x :: l' =>
      match dump_opt h x, dump_elems h l' with
      | Some a, Some b => Some (a +++ match l' with [] => "" | _ => "," +++ b end)
      | _, _ => None
      end
  end.
Fixpoint dump_members (h : ehandler) (m : list (string * json)) : option string :=
  match m with
  | [] => Some ""
  | (k, x) :: m' =>
      match dump_str h k, dump_opt h x, dump_members h m' with
      | Some kk, Some a, Some b => Some (kk +++ ":" +++ a +++ match m' with [] => "" | _ => "," +++ b end)
      | _, _, _ => None
      end
  end.
Lemma dump_arr h l : dump_opt h (JArr l) = option_map (fun t => "[" +++ t +++ "]") (dump_elems h l).
Proof. cbn. f_equal. induction l as [|x l IH]; [reflexivity|]. cbn. now rewrite IH. Qed.
Lemma dump_obj h m : dump_opt h (JObj m) = option_map (fun t => "{" +++ t +++ "}") (dump_members h m).
Proof. cbn. f_equal. induction m as [|[k x] m IH]; [reflexivity|]. cbn. now rewrite IH. Qed.
Lemma jvalid_arr l : jvalid (JArr l) = forallb jvalid l.
Proof. cbn. induction l as [|x l IH]; [reflexivity|]. cbn. now rewrite IH. Qed.
Lemma jvalid_obj m : jvalid (JObj m) = forallb (fun p => is_utf8_valid (fst p) && jvalid (snd p)) m.
Proof. cbn. induction m as [|[k x] m IH]; [reflexivity|]. cbn. now rewrite IH. Qed.
Lemma jfinite_arr l : jfinite (JArr l) = forallb jfinite l.
Proof. cbn. induction l as [|x l IH]; [reflexivity|]. cbn. now rewrite IH. Qed.
Lemma jfinite_obj m : jfinite (JObj m) = forallb (fun p => jfinite (snd p)) m.
Proof. cbn. induction m as [|[k x] m IH]; [reflexivity|]. cbn. now rewrite IH. Qed.

(** ** Strings *)
Inductive esc_class (c : ascii) : Prop :=
| ec_plain : esc_char c = String c "" -> Ascii.eqb c chr_quote = false -> Ascii.eqb c chr_bs = false ->
             (code c <? 32)%N = false -> esc_class c
| ec_short e : esc_char c = String chr_bs (String e "") -> Ascii.eqb e "u" = false -> escape_of e = Some c -> esc_class c
| ec_ctrl x y : esc_char c = "\u00" +++ String x (String y "") -> hex4 "0" "0" x y = Some (code c) -> (code c < 32)%N ->
             utf8_encode (code c) = String c "" -> esc_class c.

Lemma esc_classify c : esc_class c.
Proof.
  destruct (esc_char c) as [|a [|b [|z r]]] eqn:E.
  - exfalso. assert (negb (String.eqb (esc_char c) "") = true) as H.
    { apply (forall_bytes (fun c => negb (String.eqb (esc_char c) ""))). vm_compute. reflexivity. }
    rewrite E in H. discriminate.
  - set (P := fun c => match esc_char c with
        | String a "" => Ascii.eqb a c && negb (Ascii.eqb c chr_quote) && negb (Ascii.eqb c chr_bs) && negb (code c <? 32)%N
        | _ => true end).
    assert (P c = true) as H by (apply forall_bytes; vm_compute; reflexivity).
    unfold P in H. rewrite E in H. rewrite !andb_true_iff, !negb_true_iff, Ascii.eqb_eq in H.
    destruct H as [[[-> H1] H2] H3]. now apply ec_plain.
  - set (P := fun c => match esc_char c with
        | String a (String b "") => Ascii.eqb a chr_bs && negb (Ascii.eqb b "u") &&
            match escape_of b with Some x => Ascii.eqb x c | None => false end
        | _ => true end).
    assert (P c = true) as H by (apply forall_bytes; vm_compute; reflexivity).
    unfold P in H. rewrite E in H. rewrite !andb_true_iff, !negb_true_iff, Ascii.eqb_eq in H.
    destruct H as [[-> H1] H2]. destruct (escape_of b) as [x|] eqn:E2; [|discriminate].
    apply Ascii.eqb_eq in H2 as ->. now apply ec_short with b.
  - set (P := fun c => match esc_char c with
        | String a (String b (String z r)) =>
            match r with
            | String z2 (String x (String y "")) =>
                String.eqb (esc_char c) ("\u00" +++ String x (String y "")) &&
                match hex4 "0" "0" x y with Some n => (n =? code c)%N | None => false end && (code c <? 32)%N
                && String.eqb (utf8_encode (code c)) (String c "")
            | _ => false end
        | _ => true end).
    assert (P c = true) as H by (apply forall_bytes; vm_compute; reflexivity).
    unfold P in H. rewrite E in H. destruct r as [|z2 [|x [|y [|]]]]; try discriminate.
    rewrite !andb_true_iff, !String.eqb_eq, N.ltb_lt in H. destruct H as [[[H1 H2] H3] H4].
    destruct (hex4 "0" "0" x y) as [n|] eqn:E2; [|discriminate]. apply N.eqb_eq in H2 as ->.
    apply ec_ctrl with x y; auto. now rewrite E.
Qed.

Lemma scan_esc c r :
  utf8_next 0 c = 0 -> scan_str 0 (esc_char c +++ r) = cons_res (String c "") (scan_str 0 r).
Proof.
  intros Hn. destruct (esc_classify c) as [E H1 H2 H3|e E H1 H2|x y E H1 H2 H3]; rewrite E.
  - cbn [append scan_str Nat.eqb]. now rewrite H1, H2, H3, Hn.
  - cbn [append scan_str]. now rewrite H1, H2.
  - cbn [append scan_str Nat.eqb].
    change (Ascii.eqb chr_bs chr_quote) with false. change (Ascii.eqb chr_bs chr_bs) with true.
    cbn [Ascii.eqb]. change (Ascii.eqb "u" "u") with true. cbv beta iota.
    rewrite H1, H3.
    destruct ((55296 <=? code c) && _)%N eqn:E1; [lia|].
    destruct ((56320 <=? code c) && _)%N eqn:E2; [lia|]. reflexivity.
Qed.

Lemma next_ge2_lead c n : utf8_next 0 c = S (S n) ->
  Ascii.eqb c chr_quote = false /\ Ascii.eqb c chr_bs = false /\ (code c <? 32)%N = false.
Proof.
  intros H.
  set (P := fun c => match utf8_next 0 c with S (S _) =>
     negb (Ascii.eqb c chr_quote) && negb (Ascii.eqb c chr_bs) && negb (code c <? 32)%N | _ => true end).
  assert (P c = true) as Hp by (apply forall_bytes; vm_compute; reflexivity).
  unfold P in Hp. rewrite H in Hp. rewrite !andb_true_iff, !negb_true_iff in Hp. tauto.
Qed.

Lemma dump_esc_strict_scan s : forall st pend t,
  (st = 0 -> pend = "") -> dump_esc EStrict st pend s = Some t ->
  exists t', t = pend +++ t' /\ forall r, scan_str st (t' +++ String chr_quote r) = Some (s, r).
Proof.
  induction s as [|c s IH]; intros st pend t Hp H; cbn [dump_esc] in H.
  - destruct (Nat.eqb_spec st 0) as [->|]; [|discriminate]. injection H as <-.
    exists "". rewrite (Hp eq_refl). split; auto.
  - destruct (utf8_next st c) as [|[|st']] eqn:E.
    + destruct (dump_esc EStrict 0 "" s) as [t0|] eqn:E0; [|discriminate]. cbn in H. injection H as <-.
      apply IH in E0 as (t' & -> & Hs); auto. cbn [append].
      destruct (Nat.eqb_spec st 0) as [->|Hst].
      * rewrite (Hp eq_refl). cbn. exists (esc_char c +++ t'). split; auto.
        intros r. rewrite sapp_assoc, scan_esc by auto. now rewrite Hs.
      * exists (String c t'). rewrite sapp_assoc. split; auto. intros r.
        cbn [append scan_str]. apply Nat.eqb_neq in Hst as ->. rewrite E. now rewrite Hs.
    + discriminate.
    + apply IH in H as (t' & -> & Hs); [|discriminate]. exists (String c t').
      rewrite sapp_assoc. split; auto. intros r. cbn [append scan_str].
      destruct (Nat.eqb_spec st 0) as [->|Hst].
      * destruct (next_ge2_lead _ _ E) as (-> & -> & ->). rewrite E. now rewrite Hs.
      * rewrite E. now rewrite Hs.
Qed.

Lemma dump_str_scan s t : dump_str EStrict s = Some t ->
  exists t', t = String chr_quote t' /\ forall r, scan_str 0 (t' +++ r) = Some (s, r).
Proof.
  unfold dump_str. destruct (dump_esc EStrict 0 "" s) as [e|] eqn:E; [|discriminate]. cbn. intros [= <-].
  apply dump_esc_strict_scan in E as (t' & -> & Hs); auto. cbn. unfold quoted.
  eexists; split; [reflexivity|]. intros r. now rewrite sapp_assoc, <- (Hs r).
Qed.

(** ** Strict dumping succeeds exactly on valid UTF-8; other handlers never fail *)
Lemma urun_le s st : st <= 8 -> urun st s <= 8.
Proof. revert st; induction s as [|c s IH]; intros st H; cbn; auto. apply IH, nxt_le. Qed.
Lemma dump_esc_strict_some s : forall st pend, st <= 8 -> st <> 1 ->
  ((exists t, dump_esc EStrict st pend s = Some t) <-> urun st s = 0).
Proof.
  induction s as [|c s IH]; intros st pend Hst H1; cbn [dump_esc urun].
  - destruct (Nat.eqb_spec st 0); split; intros H; eauto; [destruct H; discriminate | congruence].
  - rewrite <- utf8_next_nxt by auto. pose proof (utf8_next_le st c Hst) as Hle.
    destruct (utf8_next st c) as [|[|st']] eqn:E.
    + rewrite <- (IH 0 "") by lia. destruct (dump_esc EStrict 0 "" s); cbn; split; intros [t Ht]; eauto; discriminate.
    + rewrite urun_1. split; [intros [t Ht]|]; discriminate.
    + apply IH; lia.
Qed.
Lemma dump_str_strict s : (exists t, dump_str EStrict s = Some t) <-> is_utf8_valid s = true.
Proof.
  rewrite is_utf8_valid_urun, Nat.eqb_eq, <- (dump_esc_strict_some s 0 "") by lia.
  unfold dump_str. destruct (dump_esc EStrict 0 "" s); cbn; split; intros [t Ht]; eauto; discriminate.
Qed.
Lemma dump_str_strict_none s : dump_str EStrict s = None <-> is_utf8_valid s = false.
Proof.
  pose proof (dump_str_strict s) as H.
  destruct (dump_str EStrict s), (is_utf8_valid s); split; intros; try discriminate; auto.
  - exfalso. assert (false = true) by (apply H; eauto). discriminate.
  - exfalso. destruct H as [_ H]. destruct (H eq_refl). discriminate.
Qed.

Lemma dump_strict_some j : (exists t, dump_opt EStrict j = Some t) <-> jvalid j = true.
Proof.
  induction j using json_ind'.
  1,3: cbn; split; eauto. 1:{ destruct b; cbn; split; eauto. }
  1:{ cbn; split; eauto. }
  - apply dump_str_strict.
  - rewrite dump_arr, jvalid_arr.
    assert ((exists t, dump_elems EStrict l = Some t) <-> forallb jvalid l = true) as X.
    { induction H as [|x l Hx Hl IH]; [cbn; split; eauto|]. cbn. rewrite andb_true_iff, <- Hx, <- IH.
      destruct (dump_opt EStrict x), (dump_elems EStrict l);
        (split; [intros [? ?]; try discriminate; eauto | intros H; decompose [and ex] H; try discriminate; eauto]). }
    rewrite <- X. destruct (dump_elems EStrict l); cbn; split; intros [t Ht]; eauto; discriminate.
  - rewrite dump_obj, jvalid_obj.
    assert ((exists t, dump_members EStrict m = Some t) <-> forallb (fun p => is_utf8_valid (fst p) && jvalid (snd p)) m = true) as X.
    { induction H as [|[k x] m Hx Hm IH]; [cbn; split; eauto|]. cbn [dump_members forallb fst snd] in *.
      rewrite !andb_true_iff, <- Hx, <- IH, <- dump_str_strict.
      destruct (dump_str EStrict k), (dump_opt EStrict x), (dump_members EStrict m);
        (split; [intros [? ?]; try discriminate; eauto 10 | intros H; decompose [and ex] H; try discriminate; eauto]). }
    rewrite <- X. destruct (dump_members EStrict m); cbn; split; intros [t Ht]; eauto; discriminate.
Qed.

Lemma dump_esc_total h s : h <> EStrict -> forall st pend, exists t, dump_esc h st pend s = Some t.
Proof.
  intros Hh. induction s as [|c s IH]; intros st pend; cbn [dump_esc].
  - destruct (Nat.eqb st 0); eauto. destruct h; [congruence| |]; eauto.
  - destruct (utf8_next st c) as [|[|st']]; auto.
    + destruct (IH 0 "") as [t ->]; cbn; eauto.
    + destruct h; [congruence| |].
      all: destruct (Nat.eqb st 0); [destruct (IH 0 "") as [t ->]; cbn; eauto|].
      all: destruct (utf8_next 0 c) as [|[|st']]; [destruct (IH 0 "") as [t ->]|destruct (IH 0 "") as [t ->]|destruct (IH (S (S st')) (String c "")) as [t ->]]; cbn; eauto.
Qed.
Lemma dump_total h j : h <> EStrict -> exists t, dump_opt h j = Some t.
Proof.
  intros Hh.
  assert (Hs : forall s, exists t, dump_str h s = Some t).
  { intros s. unfold dump_str. destruct (dump_esc_total h s Hh 0 "") as [t ->]. cbn; eauto. }
  induction j using json_ind'.
  1,3,4: cbn; eauto. 1: destruct b; cbn; eauto.
  - apply Hs.
  - rewrite dump_arr. assert (exists t, dump_elems h l = Some t) as [t ->]; [|cbn; eauto].
    induction H as [|x l [a Hx] Hl [b IH]]; cbn; eauto. rewrite Hx, IH. eauto.
  - rewrite dump_obj. assert (exists t, dump_members h m = Some t) as [t ->]; [|cbn; eauto].
    induction H as [|[k x] m [a Hx] Hm [b IH]]; cbn; eauto. cbn in Hx. destruct (Hs k) as [kk ->]. rewrite Hx, IH. eauto.
Qed.

(** Valid strings are dumped identically by all handlers. *)
Lemma dump_esc_handler h s : forall st pend t,
  dump_esc EStrict st pend s = Some t -> dump_esc h st pend s = Some t.
Proof.
  induction s as [|c s IH]; intros st pend t; cbn [dump_esc].
  - destruct (Nat.eqb st 0); auto; discriminate.
  - destruct (utf8_next st c) as [|[|st']]; auto; try discriminate.
    destruct (dump_esc EStrict 0 "" s) as [t0|] eqn:E; [|discriminate]. now rewrite (IH _ _ _ E).
Qed.
Lemma dump_handler h j t : dump_opt EStrict j = Some t -> dump_opt h j = Some t.
Proof.
  assert (Hs : forall s t, dump_str EStrict s = Some t -> dump_str h s = Some t).
  { intros s t'. unfold dump_str. destruct (dump_esc EStrict 0 "" s) as [e|] eqn:E; [|discriminate].
    now rewrite (dump_esc_handler _ _ _ _ _ E). }
  revert t. induction j using json_ind'; intros t.
  1-4: cbn; auto.
  - apply Hs.
  - rewrite !dump_arr. assert (forall t, dump_elems EStrict l = Some t -> dump_elems h l = Some t) as X.
    { induction H as [|x l Hx Hl IH]; [auto|]; intros t'. cbn.
      destruct (dump_opt EStrict x) eqn:Ex; [|discriminate]. destruct (dump_elems EStrict l) eqn:El; [|discriminate].
      now rewrite (Hx _ eq_refl), (IH _ eq_refl). }
    destruct (dump_elems EStrict l) as [e|]; [|discriminate]. now rewrite (X _ eq_refl).
  - rewrite !dump_obj. assert (forall t, dump_members EStrict m = Some t -> dump_members h m = Some t) as X.
    { induction H as [|[k x] m Hx Hm IH]; [auto|]; intros t'. cbn in *.
      destruct (dump_str EStrict k) eqn:Ek; [|discriminate].
      destruct (dump_opt EStrict x) eqn:Ex; [|discriminate]. destruct (dump_members EStrict m) eqn:Em; [|discriminate].
      now rewrite (Hs _ _ Ek), (Hx _ eq_refl), (IH _ eq_refl). }
    destruct (dump_members EStrict m) as [e|]; [|discriminate]. now rewrite (X _ eq_refl).
Qed.

(** ** The dumped text is valid UTF-8 for every handler *)
Definition asc (s : string) : bool := sall (fun c => (code c <? 128)%N) s.
Lemma nxt0_ascii c : (code c < 128)%N -> nxt 0 c = 0.
Proof. intros H. cbn. unfold rng. destruct ((0 <=? code c) && _)%N eqn:E; auto. lia. Qed.
Lemma urun_asc s : asc s = true -> urun 0 s = 0.
Proof.
  unfold asc. induction s as [|c s IH]; cbn [sall urun]; auto. rewrite andb_true_iff, N.ltb_lt.
  intros [H1 H2]. rewrite nxt0_ascii by auto. auto.
Qed.
Lemma urun_app0 a b : urun 0 a = 0 -> urun 0 b = 0 -> urun 0 (a +++ b) = 0.
Proof. intros Ha Hb. now rewrite urun_app, Ha. Qed.
Lemma urun_esc c : utf8_next 0 c = 0 -> urun 0 (esc_char c) = 0.
Proof.
  intros H. rewrite utf8_next_nxt in H by lia.
  destruct (esc_classify c) as [E H1 H2 H3|e E H1 H2|x y E H1 H2 H3]; rewrite E.
  - cbn [urun]. now rewrite H.
  - assert (asc (esc_char c) = true) as Ha.
    { set (P := fun c => match esc_char c with String _ (String _ _) => asc (esc_char c) | _ => true end).
      assert (P c = true) as Hp by (apply forall_bytes; vm_compute; reflexivity).
      unfold P in Hp. rewrite E in Hp |- *. exact Hp. }
    rewrite <- E. now apply urun_asc.
  - assert (asc (esc_char c) = true) as Ha.
    { set (P := fun c => match esc_char c with String _ (String _ _) => asc (esc_char c) | _ => true end).
      assert (P c = true) as Hp by (apply forall_bytes; vm_compute; reflexivity).
      unfold P in Hp. rewrite E in Hp |- *. exact Hp. }
    rewrite <- E. now apply urun_asc.
Qed.
Lemma urun_bad h : urun 0 (on_bad h) = 0.
Proof. destruct h; vm_compute; reflexivity. Qed.
Lemma dump_esc_utf8 h s : forall st pend t,
  st <= 8 -> st <> 1 -> urun 0 pend = st -> dump_esc h st pend s = Some t -> urun 0 t = 0.
Proof.
  induction s as [|c s IH]; intros st pend t Hst H1 Hp; cbn [dump_esc].
  - destruct (Nat.eqb st 0); [intros [= <-]; reflexivity|]. destruct h; [discriminate| |]; intros [= <-]; vm_compute; reflexivity.
  - pose proof (utf8_next_le st c Hst) as Hle. rewrite utf8_next_nxt in * by auto.
    destruct (nxt st c) as [|[|st']] eqn:E.
    + destruct (dump_esc h 0 "" s) as [t0|] eqn:E0; [|discriminate]. cbn. intros [= <-].
      apply urun_app0; [|eapply (IH 0 ""); eauto; lia].
      destruct (Nat.eqb_spec st 0) as [->|].
      * apply urun_esc. now rewrite utf8_next_nxt by lia.
      * rewrite urun_app, Hp. cbn. now rewrite E.
    + destruct h; [discriminate| |].
      all: destruct (Nat.eqb st 0).
      1,3: destruct (dump_esc _ 0 "" s) as [t0|] eqn:E0; [|discriminate]; cbn; intros [= <-];
           first [exact (IH 0 "" _ ltac:(lia) ltac:(lia) eq_refl E0) |
                  apply (urun_app0 (on_bad EReplace)); [apply urun_bad | exact (IH 0 "" _ ltac:(lia) ltac:(lia) eq_refl E0)]].
      all: pose proof (utf8_next_le 0 c ltac:(lia)) as Hle0; destruct (utf8_next 0 c) as [|[|st']] eqn:E2.
      all: match goal with |- option_map _ (dump_esc ?h ?st ?p ?s0) = _ -> _ =>
             destruct (dump_esc h st p s0) as [t0|] eqn:E0; [|discriminate];
             apply IH in E0; [|lia|lia|first [reflexivity | cbn [urun]; rewrite <- utf8_next_nxt by lia; exact E2]] end;
           cbn [option_map]; intros [= <-].
      all: repeat (apply urun_app0; [first [exact (urun_bad EReplace) | exact (urun_bad EIgnore) | now apply urun_esc]|]); auto.
    + apply IH; try lia. rewrite urun_app, Hp. cbn. exact E.
Qed.
Lemma urun_quoted t : urun 0 t = 0 -> urun 0 (quoted t) = 0.
Proof.
  intros H. unfold quoted. cbn [urun]. rewrite nxt0_ascii by (vm_compute; reflexivity).
  rewrite urun_app, H. reflexivity.
Qed.
Lemma dump_str_utf8 h s t : dump_str h s = Some t -> urun 0 t = 0.
Proof.
  unfold dump_str. destruct (dump_esc h 0 "" s) as [e|] eqn:E; [|discriminate]. cbn. intros [= <-].
  apply urun_quoted. eapply dump_esc_utf8 in E; eauto; lia.
Qed.

Lemma digit_ascii c : is_digit c = true -> (code c <? 128)%N = true.
Proof. unfold is_digit. lia. Qed.
Lemma sall_impl p q s : (forall c, p c = true -> q c = true) -> sall p s = true -> sall q s = true.
Proof. intros H. induction s as [|c s IH]; cbn; auto. rewrite !andb_true_iff. intuition. Qed.
Lemma dec_of_Z_cases z :
  dec_of_Z z = if (z <? 0)%Z then String "-" (dec_of_N (Z.to_N (- z))) else dec_of_N (Z.to_N z).
Proof. destruct z as [|p|p]; reflexivity. Qed.
Lemma asc_dec z : asc (dec_of_Z z) = true.
Proof.
  rewrite dec_of_Z_cases. unfold asc. destruct (z <? 0)%Z; cbn [sall];
  rewrite (sall_impl _ _ _ digit_ascii (dec_of_N_digits _)); reflexivity.
Qed.

(** ** Number scanning *)
Lemma span_digits_spec s d r : span_digits s = (d, r) ->
  s = d +++ r /\ sall is_digit d = true /\ match r with String c _ => is_digit c = false | "" => True end.
Proof.
  revert d r; induction s as [|c s IH]; intros d r; cbn [span_digits].
  - intros [= <- <-]; cbn; auto.
  - destruct (is_digit c) eqn:E.
    + destruct (span_digits s) as [d0 r0] eqn:E0. intros [= <- <-].
      destruct (IH _ _ eq_refl) as (-> & H1 & H2). cbn. rewrite E; auto.
    + intros [= <- <-]. cbn. auto.
Qed.
Definition nodigit (r : string) : bool := match r with String c _ => negb (is_digit c) | "" => true end.
Lemma span_digits_app d r : sall is_digit d = true -> nodigit r = true -> span_digits (d +++ r) = (d, r).
Proof.
  induction d as [|c d IH]; cbn [sall append span_digits]; intros H1 H2.
  - destruct r as [|c r]; auto. cbn in *. now destruct (is_digit c).
  - apply andb_true_iff in H1 as [-> H1]. now rewrite IH.
Qed.
(** Text that cannot extend a number. *)
Definition numstop (r : string) : bool :=
  match r with
  | String c _ => negb (is_digit c) && negb (Ascii.eqb c ".") && negb (Ascii.eqb c "e") && negb (Ascii.eqb c "E")
  | "" => true
  end.
Lemma numstop_nodigit r : numstop r = true -> nodigit r = true.
Proof. destruct r; cbn; auto. rewrite !andb_true_iff. tauto. Qed.
Lemma span_digits_ext s d q r :
  span_digits s = (d, q) -> q <> "" \/ nodigit r = true -> span_digits (s +++ r) = (d, q +++ r).
Proof.
  intros H Hq. apply span_digits_spec in H as (-> & H1 & H2). rewrite sapp_assoc. apply span_digits_app; auto.
  destruct q as [|c q]; cbn in *; [destruct Hq; [congruence|auto]|now rewrite H2].
Qed.
Lemma scan_sign_ext s sg q r :
  scan_sign s = (sg, q) -> q <> "" -> scan_sign (s +++ r) = (sg, q +++ r).
Proof.
  unfold scan_sign. destruct s as [|c s]; [intros [= <- <-]; congruence|].
  cbn [append]. intros H Hq.
  destruct c as [[] [] [] [] [] [] [] []]; injection H as <- <-; reflexivity.
Qed.
Lemma scan_int_ext s i q r :
  scan_int s = Some (i, q) -> q <> "" \/ nodigit r = true -> scan_int (s +++ r) = Some (i, q +++ r).
Proof.
  intros H Hq. destruct s as [|c s]; [discriminate|].
  assert (forall t, scan_int (String c t) = if Ascii.eqb c "0" then Some ("0", t) else if is_digit c then Some (span_digits (String c t)) else None) as X.
  { intros t. clear. destruct c as [[] [] [] [] [] [] [] []]; reflexivity. }
  cbn [append]. rewrite X in H |- *. destruct (Ascii.eqb c "0"); [now injection H as <- <-|].
  destruct (is_digit c); [|discriminate]. injection H as H. f_equal.
  change (String c (s +++ r)) with (String c s +++ r). now apply span_digits_ext.
Qed.
Lemma scan_frac_unf c t : scan_frac (String c t) =
  if Ascii.eqb c "." then (let (d, r') := span_digits t in if String.eqb d "" then None else Some (String "." d, r'))
  else Some ("", String c t).
Proof. destruct c as [[] [] [] [] [] [] [] []]; reflexivity. Qed.
Lemma scan_frac_ext s f q r :
  scan_frac s = Some (f, q) -> q <> "" \/ numstop r = true -> scan_frac (s +++ r) = Some (f, q +++ r).
Proof.
  intros H Hq. destruct s as [|c s].
  - injection H as <- <-. destruct Hq as [|Hq]; [congruence|]. cbn. destruct r as [|c r]; [reflexivity|].
    rewrite scan_frac_unf. cbn in Hq. rewrite !andb_true_iff, !negb_true_iff in Hq. destruct Hq as [[[_ ->] _] _]. reflexivity.
  - cbn [append]. rewrite scan_frac_unf in H |- *. destruct (Ascii.eqb c "."); [|now injection H as <- <-].
    destruct (span_digits s) as [d r'] eqn:E. destruct (String.eqb d "") eqn:Ed; [discriminate|]. injection H as <- <-.
    rewrite (span_digits_ext _ _ _ r E); [now rewrite Ed|]. destruct Hq; auto using numstop_nodigit.
Qed.
Lemma scan_exp_unf c t : scan_exp (String c t) =
  if Ascii.eqb c "e" || Ascii.eqb c "E" then
    (let '(sg, r1) := match t with "" => ("", "") | String x u => if Ascii.eqb x "+" then ("+", u) else if Ascii.eqb x "-" then ("-", u) else ("", t) end in
     let (d, r2) := span_digits r1 in if String.eqb d "" then None else Some (String c (sg +++ d), r2))
  else Some ("", String c t).
Proof.
  cbn [scan_exp]. destruct (Ascii.eqb c "e" || Ascii.eqb c "E"); auto. destruct t as [|x u]; auto.
  destruct x as [[] [] [] [] [] [] [] []]; reflexivity.
Qed.
Lemma scan_exp_ext s f q r :
  scan_exp s = Some (f, q) -> q <> "" \/ numstop r = true -> scan_exp (s +++ r) = Some (f, q +++ r).
Proof.
  intros H Hq. destruct s as [|c s].
  - injection H as <- <-. destruct Hq as [|Hq]; [congruence|]. cbn. destruct r as [|c r]; [reflexivity|].
    cbn in Hq |- *. rewrite !andb_true_iff, !negb_true_iff in Hq. destruct Hq as [[_ ->] ->]. reflexivity.
  - cbn [append]. rewrite scan_exp_unf in H |- *. destruct (Ascii.eqb c "e" || Ascii.eqb c "E"); [|now injection H as <- <-].
    assert (q <> "" \/ nodigit r = true) as Hq' by (destruct Hq; auto using numstop_nodigit).
    destruct s as [|x s]; [discriminate|]. cbn [append].
    destruct (Ascii.eqb x "+"); [|destruct (Ascii.eqb x "-")].
    + destruct (span_digits s) as [d r'] eqn:E. destruct (String.eqb d "") eqn:Ed; [discriminate|]. injection H as <- <-.
      rewrite (span_digits_ext _ _ _ r E); [now rewrite Ed | auto].
    + destruct (span_digits s) as [d r'] eqn:E. destruct (String.eqb d "") eqn:Ed; [discriminate|]. injection H as <- <-.
      rewrite (span_digits_ext _ _ _ r E); [now rewrite Ed | auto].
    + destruct (span_digits (String x s)) as [d r'] eqn:E. destruct (String.eqb d "") eqn:Ed; [discriminate|]. injection H as <- <-.
      change (String x (s +++ r)) with (String x s +++ r).
      rewrite (span_digits_ext _ _ _ r E); [now rewrite Ed | auto].
Qed.

Lemma scan_sign_text s sg q : scan_sign s = (sg, q) -> s = sg +++ q /\ (sg = "-" \/ sg = "").
Proof.
  unfold scan_sign. destruct s as [|c s]; [intros [= <- <-]; auto|].
  destruct c as [[] [] [] [] [] [] [] []]; intros [= <- <-]; auto.
Qed.
Lemma scan_int_unf c t : scan_int (String c t) =
  if Ascii.eqb c "0" then Some ("0", t) else if is_digit c then Some (span_digits (String c t)) else None.
Proof. destruct c as [[] [] [] [] [] [] [] []]; reflexivity. Qed.
Lemma scan_int_text s i q : scan_int s = Some (i, q) -> s = i +++ q /\ i <> "" /\ sall is_digit i = true.
Proof.
  destruct s as [|c s]; [discriminate|]. rewrite scan_int_unf.
  destruct (Ascii.eqb_spec c "0") as [->|]; [intros [= <- <-]; repeat split; auto; discriminate|].
  destruct (is_digit c) eqn:E; [|discriminate]. intros H0.
  assert (span_digits (String c s) = (i, q)) as H by congruence. clear H0.
  pose proof (span_digits_spec _ _ _ H) as (H0 & H1 & H2). repeat split; auto.
  intros ->. cbn [span_digits] in H. rewrite E in H. destruct (span_digits s); discriminate.
Qed.
Lemma scan_frac_text s f q : scan_frac s = Some (f, q) -> s = f +++ q.
Proof.
  destruct s as [|c s]; [intros [= <- <-]; auto|]. rewrite scan_frac_unf.
  destruct (Ascii.eqb_spec c ".") as [->|]; [|intros [= <- <-]; auto].
  destruct (span_digits s) as [d r'] eqn:E. destruct (String.eqb d ""); [discriminate|]. intros [= <- <-].
  apply span_digits_spec in E as (-> & _). reflexivity.
Qed.
Lemma scan_exp_text s f q : scan_exp s = Some (f, q) -> s = f +++ q.
Proof.
  destruct s as [|c s]; [intros [= <- <-]; auto|]. rewrite scan_exp_unf.
  destruct (_ || _); [|intros [= <- <-]; auto].
  destruct s as [|x s]; [discriminate|].
  destruct (Ascii.eqb_spec x "+") as [->|]; [|destruct (Ascii.eqb_spec x "-") as [->|]].
  - destruct (span_digits s) as [d r'] eqn:E. destruct (String.eqb d ""); [discriminate|]. intros [= <- <-].
    apply span_digits_spec in E as (-> & _). reflexivity.
  - destruct (span_digits s) as [d r'] eqn:E. destruct (String.eqb d ""); [discriminate|]. intros [= <- <-].
    apply span_digits_spec in E as (-> & _). reflexivity.
  - destruct (span_digits (String x s)) as [d r'] eqn:E. destruct (String.eqb d ""); [discriminate|]. intros [= <- <-].
    apply span_digits_spec in E as (-> & _). reflexivity.
Qed.

Lemma scan_number_ext s t q r :
  scan_number s = Some (t, q) -> q <> "" \/ numstop r = true -> scan_number (s +++ r) = Some (t, q +++ r).
Proof.
  unfold scan_number. intros H Hq.
  destruct (scan_sign s) as [sg r0] eqn:E0.
  destruct (scan_int r0) as [[i r1]|] eqn:E1; [|discriminate].
  destruct (scan_frac r1) as [[f r2]|] eqn:E2; [|discriminate].
  destruct (scan_exp r2) as [[e r3]|] eqn:E3; [|discriminate]. injection H as <- <-.
  assert (N0 : r0 <> "") by (intros ->; discriminate).
  assert (N2 : r2 <> "" \/ numstop r = true).
  { destruct Hq; auto. left. intros ->. injection E3 as <- <-. congruence. }
  assert (N1 : r1 <> "" \/ numstop r = true).
  { destruct N2; auto. left. intros ->. injection E2 as <- <-. congruence. }
  rewrite (scan_sign_ext _ _ _ _ E0 N0).
  rewrite (scan_int_ext _ _ _ r E1) by (destruct N1; auto using numstop_nodigit).
  rewrite (scan_frac_ext _ _ _ _ E2 N2). now rewrite (scan_exp_ext _ _ _ _ E3 Hq).
Qed.
Lemma scan_number_text s t q : scan_number s = Some (t, q) -> s = nt_text t +++ q /\ nt_int t <> "" /\ sall is_digit (nt_int t) = true /\ (nt_sign t = "-" \/ nt_sign t = "").
Proof.
  unfold scan_number. intros H.
  destruct (scan_sign s) as [sg r0] eqn:E0.
  destruct (scan_int r0) as [[i r1]|] eqn:E1; [|discriminate].
  destruct (scan_frac r1) as [[f r2]|] eqn:E2; [|discriminate].
  destruct (scan_exp r2) as [[e r3]|] eqn:E3; [|discriminate]. injection H as <- <-.
  apply scan_sign_text in E0 as [-> Hs]. apply scan_int_text in E1 as (-> & Hi & Hd).
  apply scan_frac_text in E2 as ->. apply scan_exp_text in E3 as ->.
  unfold nt_text; cbn. rewrite !sapp_assoc. auto.
Qed.

(** Decimal texts *)
Lemma digits_val_pos u : forall p, digits_val (Zpos p) (NilEmpty.string_of_uint u) = Zpos (Pos.of_uint_acc u p).
Proof.
  induction u; intros p; cbn [NilEmpty.string_of_uint digits_val Pos.of_uint_acc]; auto;
    rewrite <- IHu; f_equal; match goal with |- context [code ?c] => let v := eval vm_compute in (code c) in change (code c) with v end; lia.
Qed.
Lemma digits_val_0 u : digits_val 0 (NilEmpty.string_of_uint u) = Z.of_N (Pos.of_uint u).
Proof.
  induction u; cbn [NilEmpty.string_of_uint digits_val Pos.of_uint]; auto;
    match goal with |- _ = Z.of_N (N.pos ?q) => change (Z.of_N (N.pos q)) with (Z.pos q) end;
    rewrite <- digits_val_pos; reflexivity.
Qed.
Lemma dec_of_N_val n : digits_val 0 (dec_of_N n) = Z.of_N n.
Proof.
  unfold dec_of_N, NilZero.string_of_uint.
  assert (forall u, N.to_uint n = u -> digits_val 0 (NilEmpty.string_of_uint u) = Z.of_N n) as X.
  { intros u <-. rewrite digits_val_0. f_equal. apply (DecimalN.Unsigned.of_to n). }
  destruct (N.to_uint n) eqn:E; try (apply X; reflexivity).
  apply (f_equal N.of_uint) in E. rewrite DecimalN.Unsigned.of_to in E. subst n. reflexivity.
Qed.
Lemma dec_of_N_lead n c r : dec_of_N n = String c r -> c = "0"%char -> r = "".
Proof.
  intros H ->. unfold dec_of_N in H.
  assert (N.to_uint n = unorm (N.to_uint n)) as Hn.
  { rewrite <- (DecimalN.Unsigned.of_to n) at 1. apply DecimalN.Unsigned.to_of. }
  unfold NilZero.string_of_uint in H. destruct (N.to_uint n) eqn:E; try discriminate.
  { clear E. cbn in H. injection H as <-.
    assert (u = Nil) as ->; [|reflexivity].
    revert Hn. unfold unorm. cbn [nzhead]. destruct (nzhead u) eqn:Eu; intros Hn; try discriminate; try congruence.
    now apply (nzhead_nonzero u u0) in Eu. }
Qed.
Lemma scan_int_dec n r : nodigit r = true -> scan_int (dec_of_N n +++ r) = Some (dec_of_N n, r).
Proof.
  intros Hr. pose proof (dec_of_N_digits n) as Hd. pose proof (dec_of_N_nonempty n) as Hne.
  destruct (dec_of_N n) as [|c d] eqn:E; [congruence|]. cbn [append]. rewrite scan_int_unf.
  destruct (Ascii.eqb_spec c "0") as [->|].
  - rewrite (dec_of_N_lead _ _ _ E eq_refl). reflexivity.
  - cbn in Hd. apply andb_true_iff in Hd as [Hc Hd]. rewrite Hc. f_equal.
    change (String c (d +++ r)) with (String c d +++ r). apply span_digits_app; auto. cbn. now rewrite Hc.
Qed.
Lemma scan_number_dec z r : numstop r = true ->
  exists t, scan_number (dec_of_Z z +++ r) = Some (t, r) /\ nt_is_float t = false /\ nt_mant t = z.
Proof.
  intros Hr. pose proof (numstop_nodigit _ Hr) as Hd.
  assert (forall r, numstop r = true -> scan_frac r = Some ("", r)) as Hf.
  { intros [|c r'] H; auto. rewrite scan_frac_unf. cbn in H. rewrite !andb_true_iff, !negb_true_iff in H.
    destruct H as [[[_ ->] _] _]; auto. }
  assert (forall r, numstop r = true -> scan_exp r = Some ("", r)) as He.
  { intros [|c r'] H; auto. rewrite scan_exp_unf. cbn in H. rewrite !andb_true_iff, !negb_true_iff in H.
    destruct H as [[_ ->] ->]; auto. }
  rewrite dec_of_Z_cases. destruct (z <? 0)%Z eqn:E.
  - exists {| nt_sign := "-"; nt_int := dec_of_N (Z.to_N (- z)); nt_frac := ""; nt_exp := "" |}.
    unfold scan_number. cbn [append scan_sign]. rewrite scan_int_dec by auto. rewrite Hf, He by auto.
    repeat split. unfold nt_mant. cbn [nt_sign nt_int nt_frac]. change (sdrop 1 "") with "".
    rewrite sapp_nil_r, dec_of_N_val. cbn. lia.
  - exists {| nt_sign := ""; nt_int := dec_of_N (Z.to_N z); nt_frac := ""; nt_exp := "" |}.
    unfold scan_number.
    assert (scan_sign (dec_of_N (Z.to_N z) +++ r) = ("", dec_of_N (Z.to_N z) +++ r)) as ->.
    { pose proof (dec_of_N_digits (Z.to_N z)) as Hx. pose proof (dec_of_N_nonempty (Z.to_N z)) as Hne.
      destruct (dec_of_N (Z.to_N z)) as [|c d]; [congruence|]. cbn in Hx. apply andb_true_iff in Hx as [Hc _].
      cbn [append]. clear -Hc. destruct c as [[] [] [] [] [] [] [] []]; cbn in *; auto; discriminate. }
    rewrite scan_int_dec by auto. rewrite Hf, He by auto.
    repeat split. unfold nt_mant. cbn [nt_sign nt_int nt_frac]. change (sdrop 1 "") with "".
    rewrite sapp_nil_r, dec_of_N_val. cbn. lia.
Qed.

Lemma float_lit_scan l : float_lit l = true ->
  exists t, scan_number l = Some (t, "") /\ nt_is_float t = true /\ nt_finite t = true /\ nt_text t = l.
Proof.
  unfold float_lit. destruct (scan_number l) as [[t q]|] eqn:E; [|discriminate]. destruct q; [|discriminate].
  rewrite andb_true_iff. intros [H1 H2]. exists t. repeat split; auto.
  apply scan_number_text in E as [E _]. now rewrite sapp_nil_r in E.
Qed.

Lemma scan_number_lead s t q : scan_number s = Some (t, q) ->
  exists c r, s = String c r /\ (c = "-"%char \/ is_digit c = true).
Proof.
  intros H. apply scan_number_text in H as (-> & Hi & Hd & Hs). unfold nt_text.
  destruct Hs as [->| ->].
  - cbn. eauto.
  - destruct (nt_int t) as [|c i]; [congruence|]. cbn in *. apply andb_true_iff in Hd as [Hc _]. eauto.
Qed.

(** ** Dispatch of [pval] on the first character *)
Lemma ws_lead c : is_ws c = true -> c = " "%char \/ c = chr 9 \/ c = chr 10 \/ c = chr 13.
Proof.
  unfold is_ws. rewrite !orb_true_iff, !N.eqb_eq. intros [[[H|H]|H]|H]; apply chr_of in H; auto.
Qed.
Lemma pval_number n s t q : scan_number s = Some (t, q) ->
  pval (S n) s = option_map (fun v => (v, q)) (num_value t).
Proof.
  intros H. destruct (scan_number_lead _ _ _ H) as (c & r & -> & Hc).
  assert (is_ws c = false) as Hw.
  { destruct (is_ws c) eqn:E; auto. apply ws_lead in E.
    destruct Hc as [->|Hc]; [destruct E as [E|[E|[E|E]]]; discriminate|].
    destruct E as [->|[->|[->| ->]]]; discriminate. }
  cbn [pval skip_ws]. rewrite Hw. cbv beta iota.
  assert (Ascii.eqb c "{" = false /\ Ascii.eqb c "[" = false /\ Ascii.eqb c chr_quote = false /\ Ascii.eqb c "t" = false
          /\ Ascii.eqb c "f" = false /\ Ascii.eqb c "n" = false) as (-> & -> & -> & -> & -> & ->).
  { destruct Hc as [->|Hc]; [vm_compute; auto 10|]. clear -Hc.
    destruct c as [[] [] [] [] [] [] [] []]; cbn in Hc; try discriminate; vm_compute; auto 10. }
  now rewrite H.
Qed.

(** ** Round trip *)
Lemma mset_append (k : string) (v : json) acc :
  Forall (fun p => str_ltb (fst p) k = true) acc -> mset k v acc = (acc ++ [(k, v)])%list.
Proof.
  induction 1 as [|[k' v'] acc H _ IH]; cbn; auto. cbn in H. apply str_ltb_lt in H.
  assert (String.compare k k' = Gt) as -> by now apply scompare_gt_lt. now rewrite IH.
Qed.
Lemma msorted_app (a b : list (string * json)) :
  msorted (a ++ b) = true -> msorted a = true /\ msorted b = true /\
  forall x y, In x a -> In y b -> str_ltb (fst x) (fst y) = true.
Proof.
  induction a as [|[k v] a IH]; cbn [app]; intros H.
  - repeat split; auto.
  - apply msorted_cons in H as [Ha Hs]. destruct (IH Hs) as (H1 & H2 & H3).
    unfold mabove in Ha. rewrite Forall_app in Ha. destruct Ha as [Ha Hb].
    repeat split; auto.
    + apply msorted_cons; split; auto.
    + intros x y [<-|Hx] Hy; auto. rewrite Forall_forall in Hb. now apply Hb.
Qed.

Lemma strip_app p s : strip p (p +++ s) = Some s.
Proof. induction p as [|c p IH]; cbn; auto. now rewrite Ascii.eqb_refl. Qed.

Definition jgood (j : json) : bool := jwf j && jfinite j.
Lemma jgood_arr l : jgood (JArr l) = true -> forallb jgood l = true.
Proof.
  unfold jgood. rewrite jwf_arr, jfinite_arr. unfold jwf_all. rewrite andb_true_iff, !forallb_forall.
  intros [H1 H2] x Hx. now rewrite H1, H2.
Qed.
Lemma jgood_obj m : jgood (JObj m) = true -> msorted m = true /\ forallb (fun p => jgood (snd p)) m = true.
Proof.
  unfold jgood. rewrite jwf_obj, jfinite_obj. unfold jwf_members. rewrite !andb_true_iff, !forallb_forall.
  intros [[H0 H1] H2]. split; auto. intros x Hx. now rewrite H1, H2.
Qed.

Lemma rt_dispatch_arr n s : pval (S n) (String "[" s) =
  match skip_ws s with String "]" r' => Some (JArr [], r') | _ => option_map (fun p => (JArr (fst p), snd p)) (pelems n s) end.
Proof. reflexivity. Qed.
Lemma rt_dispatch_obj n s : pval (S n) (String "{" s) =
  match skip_ws s with String "}" r' => Some (JObj [], r') | _ => option_map (fun p => (JObj (fst p), snd p)) (pmembers n [] s) end.
Proof. reflexivity. Qed.
Lemma rt_dispatch_str n s : pval (S n) (String chr_quote s) = option_map (fun p => (JStr (fst p), snd p)) (scan_str 0 s).
Proof. reflexivity. Qed.

(** First character of a dumped value: never white space, never a closing bracket. *)
Definition lead_ok (s : string) : bool :=
  match s with
  | String c _ => negb (is_ws c) && negb (Ascii.eqb c "]") && negb (Ascii.eqb c "}") && negb (code c =? 0)%N && negb (code c =? 239)%N
  | "" => false
  end.
Lemma lead_digit c r : c = "-"%char \/ is_digit c = true -> lead_ok (String c r) = true.
Proof.
  intros [->|H]; [reflexivity|]. destruct c as [[] [] [] [] [] [] [] []]; cbn in H; try discriminate; reflexivity.
Qed.
Lemma dump_lead h j t : dump_opt h j = Some t -> lead_ok t = true.
Proof.
  destruct j as [|[]|z|l|s|l|m]; intros H.
  1,2,3: cbn in H; injection H as <-; reflexivity.
  - cbn in H; injection H as <-. destruct (scan_number_dec z "" eq_refl) as (t & Ht & _).
    rewrite sapp_nil_r in Ht. destruct (scan_number_lead _ _ _ Ht) as (c & r & -> & Hc). now apply lead_digit.
  - cbn in H; injection H as <-. destruct (float_lit l) eqn:E; [|reflexivity].
    apply float_lit_scan in E as (t & Ht & _). destruct (scan_number_lead _ _ _ Ht) as (c & r & -> & Hc). now apply lead_digit.
  - cbn in H. unfold dump_str in H. destruct (dump_esc _ _ _ _); [|discriminate]. injection H as <-. reflexivity.
  - rewrite dump_arr in H. destruct (dump_elems h l); [|discriminate]. injection H as <-. reflexivity.
  - rewrite dump_obj in H. destruct (dump_members h m); [|discriminate]. injection H as <-. reflexivity.
Qed.
Lemma lead_skip s r : lead_ok s = true -> skip_ws (s +++ r) = s +++ r.
Proof. destruct s as [|c s]; [discriminate|]. cbn. rewrite !andb_true_iff, !negb_true_iff. now intros [[[[-> _] _] _] _]. Qed.

Definition rt (j : json) : Prop := forall t r, jgood j = true -> dump_opt EStrict j = Some t -> numstop r = true ->
  exists N, forall n, N <= n -> pval n (t +++ r) = Some (j, r).

Lemma match_rbrack {A} s (x : string -> A) y : lead_ok s = true -> forall r,
  match s +++ r with String "]" r' => x r' | _ => y end = y.
Proof.
  intros H r. destruct s as [|c s]; [discriminate|]. cbn [append].
  destruct c as [[] [] [] [] [] [] [] []]; try reflexivity. discriminate.
Qed.

Lemma rt_elems l : Forall rt l -> forall t r, l <> [] -> forallb jgood l = true -> dump_elems EStrict l = Some t ->
  exists N, forall n, N <= n -> pelems n (t +++ "]" +++ r) = Some (l, r).
Proof.
  induction 1 as [|x l Hx Hl IH]; intros t r Hne Hg Hd; [congruence|].
  cbn [dump_elems forallb] in *. apply andb_true_iff in Hg as [Hg Hgl].
  destruct (dump_opt EStrict x) as [a|] eqn:Ea; [|discriminate].
  destruct (dump_elems EStrict l) as [b|] eqn:Eb; [|discriminate]. injection Hd as <-.
  destruct l as [|y l].
  - rewrite sapp_nil_r. destruct (Hx a ("]" +++ r) Hg Ea eq_refl) as [N HN].
    exists (S N). intros n Hn. destruct n as [|n]; [lia|]. cbn [pelems]. rewrite HN by lia. reflexivity.
  - rewrite !sapp_assoc. destruct (Hx a ("," +++ b +++ "]" +++ r) Hg Ea eq_refl) as [N HN].
    destruct (IH b r ltac:(discriminate) Hgl eq_refl) as [N2 HN2].
    exists (S (N + N2)). intros n Hn. destruct n as [|n]; [lia|]. cbn [pelems]. rewrite HN by lia.
    cbn [append]. change (skip_ws (String "," ?x)) with (String "," x). cbv beta iota.
    change (String "]" r) with ("]" +++ r). now rewrite HN2 by lia.
Qed.

Lemma rt_members m : Forall (fun p => rt (snd p)) m -> forall acc t r, m <> [] ->
  msorted (acc ++ m) = true -> forallb (fun p => jgood (snd p)) m = true -> dump_members EStrict m = Some t ->
  exists N, forall n, N <= n -> pmembers n acc (t +++ "}" +++ r) = Some ((acc ++ m)%list, r).
Proof.
  induction 1 as [|[k x] m Hx Hm IH]; intros acc t r Hne Hs Hg Hd; [congruence|].
  cbn [dump_members forallb fst snd] in *. apply andb_true_iff in Hg as [Hg Hgl].
  destruct (dump_str EStrict k) as [kk|] eqn:Ek; [|discriminate].
  destruct (dump_opt EStrict x) as [a|] eqn:Ea; [|discriminate].
  destruct (dump_members EStrict m) as [b|] eqn:Eb; [|discriminate]. injection Hd as <-.
  apply dump_str_scan in Ek as (k' & -> & Hk).
  assert (mset k x acc = (acc ++ [(k, x)])%list) as Hms.
  { apply mset_append. apply Forall_forall. intros p Hp. apply msorted_app in Hs as (_ & _ & Hs).
    apply (Hs p (k, x)); auto. now left. }
  destruct m as [|y m].
  - rewrite sapp_nil_r. destruct (Hx a ("}" +++ r) Hg Ea eq_refl) as [N HN].
    exists (S N). intros n Hn. destruct n as [|n]; [lia|]. rewrite !sapp_assoc.
    cbn [pmembers append]. change (skip_ws (String chr_quote ?x)) with (String chr_quote x). cbv beta iota.
    change (Ascii.eqb chr_quote chr_quote) with true. cbv beta iota. rewrite Hk.
    change (skip_ws (String ":" ?x)) with (String ":" x). cbv beta iota.
    change (String "}" r) with ("}" +++ r). rewrite HN by lia. cbn. now rewrite Hms.
  - rewrite !sapp_assoc. destruct (Hx a ("," +++ b +++ "}" +++ r) Hg Ea eq_refl) as [N HN].
    destruct (IH (acc ++ [(k, x)])%list b r ltac:(discriminate)) as [N2 HN2]; auto.
    { rewrite <- app_assoc. exact Hs. }
    exists (S (N + N2)). intros n Hn. destruct n as [|n]; [lia|]. rewrite ?sapp_assoc.
    cbn [pmembers append]. change (skip_ws (String chr_quote ?x)) with (String chr_quote x). cbv beta iota.
    change (Ascii.eqb chr_quote chr_quote) with true. cbv beta iota. rewrite ?sapp_assoc, Hk.
    cbn [append].
    change (skip_ws (String ":" ?x)) with (String ":" x). cbv beta iota. rewrite ?sapp_assoc. cbn [append].
    change (String "," (b +++ String "}" r)) with ("," +++ b +++ "}" +++ r).
    rewrite HN by lia. cbn [append]. change (skip_ws (String "," ?x)) with (String "," x). cbv beta iota.
    rewrite Hms. change (String "}" r) with ("}" +++ r). rewrite HN2 by lia. now rewrite <- app_assoc.
Qed.

Lemma round_trip_pval j : rt j.
Proof.
  induction j using json_ind'; intros t r Hg Hd Hr.
  - cbn in Hd. injection Hd as <-. exists 1. intros [|n] Hn; [lia|]. reflexivity.
  - exists 1. intros [|n] Hn; [lia|]. destruct b; cbn in Hd; injection Hd as <-; reflexivity.
  - cbn in Hd. injection Hd as <-. exists 1. intros [|n] Hn; [lia|].
    destruct (scan_number_dec z r Hr) as (t & Ht & Hf & Hm).
    rewrite (pval_number _ _ _ _ Ht). unfold num_value. rewrite Hf, Hm.
    unfold jgood in Hg. cbn [jwf jfinite] in Hg. rewrite andb_true_r in Hg. now rewrite Hg.
  - exists 1. intros [|n] Hn; [lia|]. cbn in Hd. unfold jgood in Hg. cbn in Hg. rewrite Hg in Hd.
    injection Hd as <-. apply float_lit_scan in Hg as (t & Ht & Hf & Hfin & Htxt).
    apply (scan_number_ext _ _ _ r) in Ht; auto. rewrite (pval_number _ _ _ _ Ht). unfold num_value.
    now rewrite Hf, Hfin, Htxt.
  - exists 1. intros [|n] Hn; [lia|]. cbn [dump_opt] in Hd. apply dump_str_scan in Hd as (t' & -> & Hs).
    cbn [append]. rewrite rt_dispatch_str, Hs. reflexivity.
  - rewrite dump_arr in Hd. destruct (dump_elems EStrict l) as [e|] eqn:E; [|discriminate]. injection Hd as <-.
    apply jgood_arr in Hg. destruct l as [|x l].
    + cbn in E. injection E as <-. exists 1. intros [|n] Hn; [lia|]. reflexivity.
    + destruct (rt_elems _ H e r ltac:(discriminate) Hg E) as [N HN].
      exists (S N). intros [|n] Hn; [lia|]. cbn [append]. rewrite rt_dispatch_arr.
      assert (lead_ok e = true) as Hl.
      { cbn [dump_elems] in E. destruct (dump_opt EStrict x) as [a|] eqn:Ea; [|discriminate].
        destruct (dump_elems EStrict l); [|discriminate]. injection E as <-. apply dump_lead in Ea.
        destruct a; [discriminate|exact Ea]. }
      rewrite sapp_assoc, lead_skip by auto. rewrite match_rbrack by auto. now rewrite HN by lia.
  - rewrite dump_obj in Hd. destruct (dump_members EStrict m) as [e|] eqn:E; [|discriminate]. injection Hd as <-.
    apply jgood_obj in Hg as [Hs Hg]. destruct m as [|[k x] m].
    + cbn in E. injection E as <-. exists 1. intros [|n] Hn; [lia|]. reflexivity.
    + destruct (rt_members _ H [] e r ltac:(discriminate) Hs Hg E) as [N HN].
      exists (S N). intros [|n] Hn; [lia|]. cbn [append]. rewrite rt_dispatch_obj.
      assert (exists e', e = String chr_quote e') as [e' ->].
      { cbn [dump_members] in E. destruct (dump_str EStrict k) as [a|] eqn:Ea; [|discriminate].
        destruct (dump_opt EStrict x); [|discriminate].
        destruct (dump_members EStrict m); [|discriminate]. injection E as <-. apply dump_str_scan in Ea as (t' & -> & _). eexists; reflexivity. }
      rewrite sapp_assoc. cbn [append]. change (skip_ws (String chr_quote ?x)) with (String chr_quote x).
      unfold chr_quote at 1. cbv beta iota. cbn [append] in HN. rewrite HN by lia. reflexivity.
Qed.

(** ** Lengths and fuel *)
Lemma skip_ws_len s : slen (skip_ws s) <= slen s.
Proof. induction s as [|c s IH]; cbn; auto. destruct (is_ws c); cbn; lia. Qed.
Lemma scan_str_len : forall N s st k r, slen s <= N -> scan_str st s = Some (k, r) -> slen r < slen s.
Proof.
  induction N as [|N IH]; intros s st k r HN H; [destruct s; [discriminate|cbn in HN; lia]|].
  destruct s as [|c s]; [discriminate|]. cbn [slen] in *.
  assert (forall st' x s', scan_str st' s' = Some x -> slen s' <= N -> slen (snd x) < slen s') as IH'.
  { intros st' [k' r'] s' Hx Hl. eapply IH; eauto. }
  cbn [scan_str] in H.
  assert (Hcons : forall p st' s', slen s' <= slen s -> cons_res p (scan_str st' s') = Some (k, r) -> slen r < S (slen s)).
  { intros p st' s' Hl Hc. unfold cons_res in Hc. destruct (scan_str st' s') as [x|] eqn:E; [|discriminate].
    cbn in Hc. injection Hc as _ <-. apply IH' in E; lia. }
  destruct (Nat.eqb st 0).
  - destruct (Ascii.eqb c chr_quote); [injection H as _ <-; lia|].
    destruct (Ascii.eqb c chr_bs).
    + destruct s as [|e r1]; [discriminate|]. destruct (Ascii.eqb e "u").
      * destruct r1 as [|a [|b [|c' [|d r2]]]]; try discriminate.
        destruct (hex4 a b c' d); [|discriminate].
        destruct ((55296 <=? n) && _)%N.
        -- destruct r2 as [|bs [|u [|a2 [|b2 [|c2 [|d2 r3]]]]]]; try discriminate.
           destruct (_ && _); [|discriminate]. destruct (hex4 a2 b2 c2 d2); [|discriminate].
           destruct ((56320 <=? n0) && _)%N; [|discriminate]. eapply Hcons; [|exact H]. cbn; lia.
        -- destruct ((56320 <=? n) && _)%N; [discriminate|]. eapply Hcons; [|exact H]. cbn; lia.
      * destruct (escape_of e); [|discriminate]. eapply Hcons; [|exact H]. cbn; lia.
    + destruct (_ <? _)%N; [discriminate|].
      destruct (utf8_next 0 c) as [|[|]]; try discriminate; (eapply Hcons; [|exact H]; lia).
  - destruct (utf8_next st c) as [|[|]]; try discriminate; (eapply Hcons; [|exact H]; lia).
Qed.
Lemma scan_number_len s t q : scan_number s = Some (t, q) -> slen q < slen s.
Proof.
  intros H. apply scan_number_text in H as (-> & Hi & _). unfold nt_text. rewrite !slen_app.
  destruct (nt_int t); [congruence|]. cbn; lia.
Qed.
Lemma strip_len p s r : strip p s = Some r -> slen s = slen p + slen r.
Proof.
  revert s; induction p as [|a p IH]; intros s; cbn; [intros [= ->]; auto|].
  destruct s as [|b s]; [discriminate|]. destruct (Ascii.eqb a b); [|discriminate]. intros H. apply IH in H. cbn; lia.
Qed.

Lemma len_all n :
  (forall s j r, pval n s = Some (j, r) -> slen r < slen s) /\
  (forall s l r, pelems n s = Some (l, r) -> slen r < slen s) /\
  (forall acc s l r, pmembers n acc s = Some (l, r) -> slen r < slen s).
Proof.
  induction n as [|n (IHv & IHe & IHm)]; [repeat split; discriminate|]. repeat split.
  - intros s j r. cbn [pval]. pose proof (skip_ws_len s) as Hl. destruct (skip_ws s) as [|c s1]; [discriminate|].
    cbn [slen] in Hl. pose proof (skip_ws_len s1) as Hl1.
    destruct (Ascii.eqb c "{").
    { intros H. assert ((exists r', skip_ws s1 = String "}" r' /\ r = r') \/ exists l, pmembers n [] s1 = Some (l, r)) as [(r' & E & ->)|[l Hx]].
      { destruct (skip_ws s1) as [|c1 s2]; [|destruct c1 as [[] [] [] [] [] [] [] []]]; try (left; injection H as <- <-; eauto; fail);
          right; destruct (pmembers n [] s1) as [[l q]|]; try discriminate; injection H as _ <-; eauto. }
      - rewrite E in Hl1. cbn in Hl1. lia.
      - apply IHm in Hx. lia. }
    destruct (Ascii.eqb c "[").
    { intros H. assert ((exists r', skip_ws s1 = String "]" r' /\ r = r') \/ exists l, pelems n s1 = Some (l, r)) as [(r' & E & ->)|[l Hx]].
      { destruct (skip_ws s1) as [|c1 s2]; [|destruct c1 as [[] [] [] [] [] [] [] []]]; try (left; injection H as <- <-; eauto; fail);
          right; destruct (pelems n s1) as [[l q]|]; try discriminate; injection H as _ <-; eauto. }
      - rewrite E in Hl1. cbn in Hl1. lia.
      - apply IHe in Hx. lia. }
    destruct (Ascii.eqb c chr_quote).
    { destruct (scan_str 0 s1) as [[k q]|] eqn:E; [|discriminate]. cbn. intros [= <- <-].
      apply (scan_str_len (slen s1)) in E; lia. }
    destruct (Ascii.eqb c "t").
    { destruct (strip "true" (String c s1)) as [q|] eqn:E; [|discriminate]. cbn. intros [= <- <-]. apply strip_len in E. cbn in E. lia. }
    destruct (Ascii.eqb c "f").
    { destruct (strip "false" (String c s1)) as [q|] eqn:E; [|discriminate]. cbn. intros [= <- <-]. apply strip_len in E. cbn in E. lia. }
    destruct (Ascii.eqb c "n").
    { destruct (strip "null" (String c s1)) as [q|] eqn:E; [|discriminate]. cbn. intros [= <- <-]. apply strip_len in E. cbn in E. lia. }
    destruct (scan_number (String c s1)) as [[t q]|] eqn:E; [|discriminate].
    destruct (num_value t); [|discriminate]. cbn. intros [= <- <-]. apply scan_number_len in E. cbn in E. lia.
  - intros s l r. cbn [pelems]. destruct (pval n s) as [[v r1]|] eqn:E; [|discriminate]. apply IHv in E.
    pose proof (skip_ws_len r1) as Hl. destruct (skip_ws r1) as [|c r2]; [discriminate|]. cbn [slen] in Hl.
    destruct c as [[] [] [] [] [] [] [] []]; try discriminate.
    + intros [= <- <-]. lia.
    + destruct (pelems n r2) as [[l2 q]|] eqn:E2; [|discriminate]. cbn. intros [= <- <-]. apply IHe in E2. lia.
  - intros acc s l r. cbn [pmembers]. pose proof (skip_ws_len s) as Hl. destruct (skip_ws s) as [|q r0]; [discriminate|]. cbn [slen] in Hl.
    destruct (Ascii.eqb q chr_quote); [|discriminate]. destruct (scan_str 0 r0) as [[k r1]|] eqn:E; [|discriminate].
    apply (scan_str_len (slen r0)) in E; [|lia].
    pose proof (skip_ws_len r1) as Hl1. destruct (skip_ws r1) as [|c r2]; [discriminate|]. cbn [slen] in Hl1.
    destruct c as [[] [] [] [] [] [] [] []]; try discriminate.
    destruct (pval n r2) as [[v r3]|] eqn:E2; [|discriminate]. apply IHv in E2.
    pose proof (skip_ws_len r3) as Hl3. destruct (skip_ws r3) as [|c r4]; [discriminate|]. cbn [slen] in Hl3.
    destruct c as [[] [] [] [] [] [] [] []]; try discriminate.
    + intros [= <- <-]. lia.
    + intros H. apply IHm in H. lia.
Qed.
Lemma pval_len n s j r : pval n s = Some (j, r) -> slen r < slen s.
Proof. apply len_all. Qed.

(** More fuel than [2 * length + 1] changes nothing. *)
Lemma fuel_all n :
  (forall s, 2 * slen s + 1 <= n -> pval (S n) s = pval n s) /\
  (forall s, 2 * slen s + 2 <= n -> pelems (S n) s = pelems n s) /\
  (forall acc s, 2 * slen s + 2 <= n -> pmembers (S n) acc s = pmembers n acc s).
Proof.
  induction n as [|n (IHv & IHe & IHm)]; [repeat split; intros; lia|].
  set (m := S n) in *. repeat split.
  - intros s Hn. unfold m at 2. cbn [pval]. pose proof (skip_ws_len s) as Hl. destruct (skip_ws s) as [|c s1]; auto.
    cbn [slen] in Hl. rewrite IHe, IHm by lia. reflexivity.
  - intros s Hn. unfold m at 2. cbn [pelems]. rewrite IHv by lia. destruct (pval n s) as [[v r]|] eqn:E; auto.
    apply pval_len in E. pose proof (skip_ws_len r) as Hl. destruct (skip_ws r) as [|c r1]; auto. cbn [slen] in Hl.
    rewrite IHe by lia. reflexivity.
  - intros acc s Hn. unfold m at 2. cbn [pmembers]. pose proof (skip_ws_len s) as Hl. destruct (skip_ws s) as [|q r0]; auto. cbn [slen] in Hl.
    destruct (Ascii.eqb q chr_quote); auto. destruct (scan_str 0 r0) as [[k r1]|] eqn:E; auto.
    apply (scan_str_len (slen r0)) in E; [|lia].
    pose proof (skip_ws_len r1) as Hl1. destruct (skip_ws r1) as [|c r2]; auto. cbn [slen] in Hl1.
    rewrite IHv by lia. destruct c as [[] [] [] [] [] [] [] []]; auto.
    destruct (pval n r2) as [[v r3]|] eqn:E2; auto. apply pval_len in E2.
    pose proof (skip_ws_len r3) as Hl3. destruct (skip_ws r3) as [|c r4]; auto. cbn [slen] in Hl3.
    rewrite IHm by lia. reflexivity.
Qed.
Lemma pval_fuel n s : fuel_for s <= n -> pval n s = pval (fuel_for s) s.
Proof.
  unfold fuel_for. intros H. induction n as [|n IH]; [lia|].
  destruct (Nat.eq_dec (2 * slen s + 1) (S n)) as [->|]; auto.
  rewrite <- IH by lia. apply fuel_all. lia.
Qed.

(** ** Round trip theorem *)
Lemma dump_bom h j t : dump_opt h j = Some t -> strip bom t = None.
Proof.
  intros H. apply dump_lead in H. destruct t as [|c t]; [discriminate|]. cbn [strip bom].
  destruct (Ascii.eqb_spec (chr 239) c) as [<-|]; auto. discriminate.
Qed.
Lemma round_trip j t : jgood j = true -> dump_opt EStrict j = Some t -> parse_opt t = Some j.
Proof.
  intros Hg Hd. unfold parse_opt, skip_bom. rewrite (dump_bom _ _ _ Hd).
  destruct (round_trip_pval j t "" Hg Hd eq_refl) as [N HN]. rewrite sapp_nil_r in HN.
  rewrite <- (pval_fuel (N + fuel_for t)) by lia. rewrite HN by lia. reflexivity.
Qed.
Lemma round_trip_any h j t : jgood j = true -> jvalid j = true -> dump_opt h j = Some t -> parse_opt t = Some j.
Proof.
  intros Hg Hv Hd. apply dump_strict_some in Hv as [t' Ht]. pose proof (dump_handler h _ _ Ht) as H.
  rewrite H in Hd. injection Hd as ->. now apply round_trip.
Qed.
Lemma parse_dump h j t : jgood j = true -> jvalid j = true -> dump h j = Ok t -> parse t = Ok j.
Proof.
  unfold dump, parse. intros Hg Hv. destruct (dump_opt h j) as [t'|] eqn:E; [|discriminate]. intros [= ->].
  now rewrite (round_trip_any _ _ _ Hg Hv E).
Qed.

(** ** Extension: appending text after a complete value *)
Lemma skip_ws_ext s r c q : skip_ws s = String c q -> skip_ws (s +++ r) = String c (q +++ r).
Proof.
  induction s as [|a s IH]; cbn; [discriminate|]. destruct (is_ws a); auto. intros [= -> ->]. reflexivity.
Qed.
Lemma strip_ext p s q r : strip p s = Some q -> strip p (s +++ r) = Some (q +++ r).
Proof.
  revert s; induction p as [|a p IH]; intros s; cbn; [now intros [= ->]|].
  destruct s as [|b s]; [discriminate|]. cbn. destruct (Ascii.eqb a b); [apply IH|discriminate].
Qed.
Lemma scan_str_ext : forall N s st k q r, slen s <= N -> scan_str st s = Some (k, q) -> scan_str st (s +++ r) = Some (k, q +++ r).
Proof.
  induction N as [|N IH]; intros s st k q x HN H; [destruct s; [discriminate|cbn in HN; lia]|].
  destruct s as [|c s]; [discriminate|]. cbn [slen] in *.
  assert (Hcons : forall p st' s', slen s' <= slen s -> cons_res p (scan_str st' s') = Some (k, q) ->
            cons_res p (scan_str st' (s' +++ x)) = Some (k, q +++ x)).
  { intros p st' s' Hl Hc. unfold cons_res in *. destruct (scan_str st' s') as [[k' q']|] eqn:E; [|discriminate].
    cbn in Hc. injection Hc as <- <-. rewrite (IH s' _ _ _ x ltac:(lia) E). reflexivity. }
  cbn [append scan_str] in *.
  destruct (Nat.eqb st 0).
  - destruct (Ascii.eqb c chr_quote); [now injection H as <- <-|].
    destruct (Ascii.eqb c chr_bs).
    + destruct s as [|e r1]; [discriminate|]. cbn [append]. destruct (Ascii.eqb e "u").
      * destruct r1 as [|a [|b [|c' [|d r2]]]]; try discriminate. cbn [append].
        destruct (hex4 a b c' d); [|discriminate].
        destruct ((55296 <=? n) && _)%N.
        -- destruct r2 as [|bs [|u [|a2 [|b2 [|c2 [|d2 r3]]]]]]; try discriminate. cbn [append].
           destruct (_ && _); [|discriminate]. destruct (hex4 a2 b2 c2 d2); [|discriminate].
           destruct ((56320 <=? n0) && _)%N; [|discriminate]. apply Hcons; [cbn; lia|exact H].
        -- destruct ((56320 <=? n) && _)%N; [discriminate|]. apply Hcons; [cbn; lia|exact H].
      * destruct (escape_of e); [|discriminate]. apply Hcons; [cbn; lia|exact H].
    + destruct (_ <? _)%N; [discriminate|].
      destruct (utf8_next 0 c) as [|[|]]; try discriminate; (apply Hcons; [lia|exact H]).
  - destruct (utf8_next st c) as [|[|]]; try discriminate; (apply Hcons; [lia|exact H]).
Qed.

Definition is_num (j : json) : bool := match j with JInt _ | JFloat _ => true | _ => false end.
Lemma ext_all n :
  (forall s j q r, pval n s = Some (j, q) -> is_num j = false \/ q <> "" \/ numstop r = true -> pval n (s +++ r) = Some (j, q +++ r)) /\
  (forall s l q r, pelems n s = Some (l, q) -> pelems n (s +++ r) = Some (l, q +++ r)) /\
  (forall acc s l q r, pmembers n acc s = Some (l, q) -> pmembers n acc (s +++ r) = Some (l, q +++ r)).
Proof.
  induction n as [|n (IHv & IHe & IHm)]; [repeat split; discriminate|]. repeat split.
  - intros s j q x. cbn [pval]. destruct (skip_ws s) as [|c s1] eqn:Es; [discriminate|].
    rewrite (skip_ws_ext _ x _ _ Es).
    destruct (Ascii.eqb c "{").
    { intros H _. destruct (skip_ws s1) as [|c1 s2] eqn:E1.
      - destruct (pmembers n [] s1) as [[l p]|] eqn:E2; [|discriminate].
        exfalso. destruct n; [discriminate|]. cbn in E2. rewrite E1 in E2. discriminate.
      - rewrite (skip_ws_ext _ x _ _ E1).
        destruct (Ascii.eqb_spec c1 "}") as [->|Hc1]; [now injection H as <- <-|].
        assert (forall (y : option (json * string)) z, match String c1 z with String "}" r' => Some (JObj [], r') | _ => y end = y) as M.
        { intros y z. clear -Hc1. destruct c1 as [[] [] [] [] [] [] [] []]; try reflexivity. congruence. }
        rewrite M in H |- *. destruct (pmembers n [] s1) as [[l p]|] eqn:E2; [|discriminate]. cbn in H. injection H as <- <-.
        now rewrite (IHm _ _ _ _ _ E2). }
    destruct (Ascii.eqb c "[").
    { intros H _. destruct (skip_ws s1) as [|c1 s2] eqn:E1.
      - destruct (pelems n s1) as [[l p]|] eqn:E2; [|discriminate].
        exfalso. destruct n; [discriminate|]. cbn in E2. destruct n; [discriminate|]. cbn in E2. rewrite E1 in E2. discriminate.
      - rewrite (skip_ws_ext _ x _ _ E1).
        destruct (Ascii.eqb_spec c1 "]") as [->|Hc1]; [now injection H as <- <-|].
        assert (forall (y : option (json * string)) z, match String c1 z with String "]" r' => Some (JArr [], r') | _ => y end = y) as M.
        { intros y z. clear -Hc1. destruct c1 as [[] [] [] [] [] [] [] []]; try reflexivity. congruence. }
        rewrite M in H |- *. destruct (pelems n s1) as [[l p]|] eqn:E2; [|discriminate]. cbn in H. injection H as <- <-.
        now rewrite (IHe _ _ _ _ E2). }
    destruct (Ascii.eqb c chr_quote).
    { destruct (scan_str 0 s1) as [[k p]|] eqn:E; [|discriminate]. cbn. intros [= <- <-] _.
      now rewrite (scan_str_ext (slen s1) _ _ _ _ x (le_n _) E). }
    change (String c (s1 +++ x)) with (String c s1 +++ x).
    destruct (Ascii.eqb c "t").
    { destruct (strip "true" (String c s1)) as [p|] eqn:E; [|discriminate]. cbn [option_map]. intros [= <- <-] _. now rewrite (strip_ext _ _ _ x E). }
    destruct (Ascii.eqb c "f").
    { destruct (strip "false" (String c s1)) as [p|] eqn:E; [|discriminate]. cbn [option_map]. intros [= <- <-] _. now rewrite (strip_ext _ _ _ x E). }
    destruct (Ascii.eqb c "n").
    { destruct (strip "null" (String c s1)) as [p|] eqn:E; [|discriminate]. cbn [option_map]. intros [= <- <-] _. now rewrite (strip_ext _ _ _ x E). }
    destruct (scan_number (String c s1)) as [[t p]|] eqn:E; [|discriminate].
    destruct (num_value t) as [v|] eqn:Ev; [|discriminate]. cbn [option_map]. intros [= <- <-] Hc.
    assert (is_num v = true) as Hv.
    { unfold num_value in Ev. destruct (nt_is_float t); [destruct (nt_finite t); [|discriminate]; now injection Ev as <-|].
      destruct (_ && _)%Z; [now injection Ev as <-|]. destruct (nt_finite _); [|discriminate]; now injection Ev as <-. }
    destruct Hc as [Hc|Hc]; [congruence|].
    rewrite (scan_number_ext _ _ _ x E Hc), Ev. reflexivity.
  - intros s l q x. cbn [pelems]. destruct (pval n s) as [[v r1]|] eqn:E; [|discriminate].
    intros H. destruct (skip_ws r1) as [|c r2] eqn:E1; [discriminate|].
    rewrite (IHv _ _ _ x E) by (right; left; intros ->; discriminate). rewrite (skip_ws_ext _ x _ _ E1).
    destruct c as [[] [] [] [] [] [] [] []]; try discriminate.
    + now injection H as <- <-.
    + destruct (pelems n r2) as [[l2 p]|] eqn:E2; [|discriminate]. cbn in H. injection H as <- <-. now rewrite (IHe _ _ _ _ E2).
  - intros acc s l q x. cbn [pmembers]. destruct (skip_ws s) as [|c r0] eqn:E0; [discriminate|].
    rewrite (skip_ws_ext _ x _ _ E0). destruct (Ascii.eqb c chr_quote); [|discriminate].
    destruct (scan_str 0 r0) as [[k r1]|] eqn:E; [|discriminate]. rewrite (scan_str_ext (slen r0) _ _ _ _ x (le_n _) E).
    destruct (skip_ws r1) as [|c1 r2] eqn:E1; [discriminate|]. rewrite (skip_ws_ext _ x _ _ E1).
    destruct c1 as [[] [] [] [] [] [] [] []]; try discriminate.
    destruct (pval n r2) as [[v r3]|] eqn:E2; [|discriminate]. intros H.
    destruct (skip_ws r3) as [|c2 r4] eqn:E3; [discriminate|].
    rewrite (IHv _ _ _ x E2) by (right; left; intros ->; discriminate). rewrite (skip_ws_ext _ x _ _ E3).
    destruct c2 as [[] [] [] [] [] [] [] []]; try discriminate.
    + now injection H as <- <-.
    + now apply IHm.
Qed.
Lemma pval_ext n s j q r : pval n s = Some (j, q) -> is_num j = false \/ q <> "" \/ numstop r = true -> pval n (s +++ r) = Some (j, q +++ r).
Proof. apply ext_all. Qed.
