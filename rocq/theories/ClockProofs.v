(** Proofs about timestamps (C56). *)
From Verif Require Import Base BaseFacts Json JsonText JsonTextProofs Utf8 Message Host Logger HostSpec.
Local Open Scope Z_scope.
Ltac zdiv := Z.to_euclidean_division_equations; lia.
Lemma leap_step y : 1970 <= y -> days_before_year (y + 1) = days_before_year y + year_len y.
Proof.
  intros H. unfold days_before_year, leaps_before, year_len, leap.
  replace (y + 1 - 1) with y by lia.
  destruct (Z.eqb_spec (y mod 4) 0), (Z.eqb_spec (y mod 100) 0), (Z.eqb_spec (y mod 400) 0); cbn [negb andb orb]; zdiv.
Qed.
Lemma year_len_ge y : 365 <= year_len y.
Proof. unfold year_len. destruct (leap y); lia. Qed.
Lemma year_of_spec fuel : forall y days, 1970 <= y -> 0 <= days -> days < 365 * Z.of_nat fuel ->
  let (y', d') := year_of fuel y days in
  1970 <= y' /\ 0 <= d' < year_len y' /\ days_before_year y' + d' = days_before_year y + days.
Proof.
  induction fuel as [|fuel IH]; intros y days Hy Hd Hf; [lia|]. cbn [year_of].
  destruct (Z.ltb_spec days (year_len y)); [lia|].
  pose proof (year_len_ge y). specialize (IH (y + 1) (days - year_len y)).
  destruct (year_of fuel (y + 1) (days - year_len y)) as [y' d']. rewrite leap_step in IH by lia.
  destruct IH as (A & B & C); try lia.
Qed.
Lemma month_of_spec y days : 0 <= days < year_len y ->
  let (m, d) := month_of (month_lens y) 1 days in
  1 <= m <= 12 /\ 0 <= d < nth (Z.to_nat m) (0 :: month_lens y) 0 /\ days_before_month y m + d = days.
Proof.
  unfold year_len, month_lens, days_before_month, leap. intros H.
  destruct (Z.eqb_spec (y mod 4) 0), (Z.eqb_spec (y mod 100) 0), (Z.eqb_spec (y mod 400) 0); cbn [negb andb orb] in *; cbn [month_of];
  repeat match goal with |- context [if ?a <? ?b then _ else _] => destruct (Z.ltb_spec a b) end; try lia; 
  repeat match goal with
  | |- context [Z.to_nat ?e] => let v := eval vm_compute in (Z.to_nat e) in change (Z.to_nat e) with v
  | |- context [2 <? ?e] => let v := eval vm_compute in (2 <? e) in change (2 <? e) with v
  end; cbn [nth andb]; lia.
Qed.
Lemma civil_spec days : 0 <= days ->
  let '(y, m, d) := civil days in
  1970 <= y /\ 1 <= m <= 12 /\ 1 <= d <= nth (Z.to_nat m) (0 :: month_lens y) 0 /\ date_days y m d = days.
Proof.
  intros H. unfold civil.
  pose proof (year_of_spec (S (Z.to_nat (days / 365))) 1970 days ltac:(lia) H) as Y.
  destruct (year_of (S (Z.to_nat (days / 365))) 1970 days) as [y d0].
  destruct Y as (Y1 & Y2 & Y3). { rewrite Nat2Z.inj_succ, Z2Nat.id by zdiv. zdiv. }
  pose proof (month_of_spec y d0 Y2) as M. destruct (month_of (month_lens y) 1 d0) as [m d]. destruct M as (M1 & M2 & M3).
  unfold date_days. change (days_before_year 1970) with 0 in Y3. repeat split; lia.
Qed.
Lemma dec_digits z : 0 <= z -> sall is_digit (dec_of_Z z) = true /\ number (dec_of_Z z) = z /\ dec_of_Z z <> "".
Proof.
  intros H. rewrite dec_of_Z_cases. destruct (Z.ltb_spec z 0); [lia|]. unfold number.
  rewrite dec_of_N_val, Z2N.id by lia. auto using dec_of_N_digits, dec_of_N_nonempty.
Qed.
Lemma two_cases z : 0 <= z < 100 -> exists a b, two z = String a (String b "") /\ is_digit a = true /\ is_digit b = true /\ number (two z) = z.
Proof.
  intros H. assert (exists n, z = Z.of_nat n /\ (n < 100)%nat) as (n & -> & Hn) by (exists (Z.to_nat z); lia).
  clear H. do 100 (destruct n as [|n]; [eexists _, _; repeat split; vm_compute; reflexivity|]). lia.
Qed.
Lemma field_app d mark r : sall is_digit d = true -> d <> "" -> is_digit mark = false -> field mark (d +++ String mark r) = Some (d, r).
Proof.
  intros D N M. unfold field. rewrite span_digits_app; cbn; auto; [|now rewrite M].
  rewrite Ascii.eqb_refl. apply String.eqb_neq in N. now rewrite N.
Qed.
Lemma field_two z mark r : 0 <= z < 100 -> is_digit mark = false -> field mark (two z +++ String mark r) = Some (two z, r).
Proof.
  intros H M. destruct (two_cases z H) as (a & b & -> & A & B & _). apply field_app; auto; [|discriminate]. cbn. now rewrite A, B.
Qed.
Lemma two_len z : 0 <= z < 100 -> slen (two z) = 2%nat.
Proof. intros H. destruct (two_cases z H) as (a & b & -> & _). reflexivity. Qed.
Lemma two_num z : 0 <= z < 100 -> number (two z) = z.
Proof. intros H. now destruct (two_cases z H) as (a & b & _ & _ & _ & ->). Qed.
Lemma month_lens_le y m : 1 <= m <= 12 -> nth (Z.to_nat m) (0 :: month_lens y) 0 <= 31.
Proof.
  intros H. assert (m = 1 \/ m = 2 \/ m = 3 \/ m = 4 \/ m = 5 \/ m = 6 \/ m = 7 \/ m = 8 \/ m = 9 \/ m = 10 \/ m = 11 \/ m = 12) as X by lia.
  unfold month_lens. repeat destruct X as [->|X]; subst;
  (match goal with |- context [Z.to_nat ?e] => let v := eval vm_compute in (Z.to_nat e) in change (Z.to_nat e) with v end);
  cbn [nth]; try destruct (leap y); lia.
Qed.
Lemma iso_fields_iso t : 0 <= t ->
  let '(y, m, d) := civil (t / 1000000 / 86400) in let s := (t / 1000000) mod 86400 in
  iso_fields (iso8601 t) = Some (y, m, d, s / 3600, s / 60 mod 60, s mod 60, dec_of_Z (t mod 1000000)).
Proof.
  intros H. unfold iso8601. pose proof (civil_spec (t / 1000000 / 86400) ltac:(zdiv)) as C.
  destruct (civil (t / 1000000 / 86400)) as [[y m] d]. destruct C as (C1 & C2 & C3 & _).
  pose proof (month_lens_le y m C2). cbv zeta.
  set (s := (t / 1000000) mod 86400). assert (0 <= s < 86400) as S by (subst s; zdiv).
  assert (0 <= s / 3600 < 100) by zdiv. assert (0 <= s / 60 mod 60 < 100) by zdiv. assert (0 <= s mod 60 < 100) by zdiv.
  destruct (dec_digits y ltac:(lia)) as (Y1 & Y2 & Y3). destruct (dec_digits (t mod 1000000) ltac:(zdiv)) as (F1 & F2 & F3).
  unfold iso_fields. cbn [append].
  rewrite field_app by auto. rewrite field_two by (auto; lia). rewrite field_two by (auto; lia). rewrite field_two by auto.
  rewrite field_two by auto. rewrite field_two by auto. rewrite field_app by auto.
  rewrite !two_len, !two_num by lia. cbn. now rewrite Y2.
Qed.
Lemma civil_inj a b : 0 <= a -> 0 <= b -> civil a = civil b -> a = b.
Proof.
  intros Ha Hb E. pose proof (civil_spec a Ha) as A. pose proof (civil_spec b Hb) as B. rewrite E in A.
  destruct (civil b) as [[y m] d]. lia.
Qed.
Lemma iso_inj a b : 0 <= a -> 0 <= b -> iso8601 a = iso8601 b -> a = b.
Proof.
  intros Ha Hb E. pose proof (iso_fields_iso a Ha) as A. pose proof (iso_fields_iso b Hb) as B. rewrite E in A.
  destruct (civil (a / 1000000 / 86400)) as [[ya ma] da] eqn:Ca. destruct (civil (b / 1000000 / 86400)) as [[yb mb] db] eqn:Cb.
  cbv zeta in *. rewrite A in B. injection B as E1 E2 E3 E4 E5 E6 E7. subst.
  assert (a / 1000000 / 86400 = b / 1000000 / 86400) by (apply civil_inj; try zdiv; congruence).
  apply dec_of_Z_inj in E7. clear - H E4 E5 E6 E7 Ha Hb.
  remember (a / 1000000) as u. remember (b / 1000000) as v. assert (0 <= u) by zdiv. assert (0 <= v) by zdiv.
  assert (u mod 86400 = v mod 86400) by (remember (u mod 86400) as p; remember (v mod 86400) as q; clear - E4 E5 E6; zdiv).
  zdiv.
Qed.
Lemma month_lens_spec y m : 1 <= m <= 12 -> nth (Z.to_nat m) (0 :: month_lens y) 0 =
  nth (Z.to_nat m) [0; 31; if y mod 4 =? 0 then if y mod 100 =? 0 then if y mod 400 =? 0 then 29 else 28 else 29 else 28; 31; 30; 31; 30; 31; 31; 30; 31; 30; 31] 0.
Proof. intros H. unfold month_lens, leap. destruct (y mod 4 =? 0), (y mod 100 =? 0), (y mod 400 =? 0); reflexivity. Qed.
Lemma iso_denotes t : 0 <= t ->
  let f := t mod 1000000 in
  denotes (iso8601 t) = Some (t - f + f * 1000000 / 10 ^ Z.of_nat (slen (dec_of_Z f))).
Proof.
  intros H. unfold denotes. pose proof (iso_fields_iso t H) as A. pose proof (civil_spec (t / 1000000 / 86400) ltac:(zdiv)) as C.
  destruct (civil (t / 1000000 / 86400)) as [[y m] d]. cbv zeta in *. rewrite A. destruct C as (C1 & C2 & C3 & C4).
  destruct (dec_digits (t mod 1000000) ltac:(zdiv)) as (F1 & -> & F3).
  set (s := (t / 1000000) mod 86400) in *. assert (0 <= s < 86400) as S by (subst s; zdiv).
  rewrite (month_lens_spec y m C2) in C3.
  assert (in_calendar y m d (s / 3600) (s / 60 mod 60) (s mod 60) = true) as ->.
  { unfold in_calendar. rewrite !andb_true_iff, !Z.leb_le. repeat split; try lia; zdiv. }
  f_equal. rewrite C4. subst s. set (x := _ / 10 ^ _). clearbody x. clear - H. f_equal. zdiv.
Qed.
Lemma digits_val_bound d : sall is_digit d = true -> forall a, 0 <= a ->
  a * 10 ^ Z.of_nat (slen d) <= digits_val a d < (a + 1) * 10 ^ Z.of_nat (slen d).
Proof.
  induction d as [|c d IH]; intros D a Ha; cbn [sall digits_val slen] in *; [cbn; lia|].
  apply andb_true_iff in D as [Dc D]. unfold is_digit in Dc.
  change (slen (String c d)) with (S (slen d)). rewrite Nat2Z.inj_succ, Z.pow_succ_r by lia.
  match goal with |- _ <= digits_val ?x d < _ => specialize (IH D x) end. unfold code in *. 
  set (p := 10 ^ Z.of_nat (slen d)) in *. assert (0 < p) by (subst p; apply Z.pow_pos_nonneg; lia).
  nia.
Qed.
Lemma dec_len f : 0 < f -> 10 ^ (Z.of_nat (slen (dec_of_Z f)) - 1) <= f < 10 ^ Z.of_nat (slen (dec_of_Z f)) /\ (1 <= slen (dec_of_Z f))%nat.
Proof.
  intros H. destruct (dec_digits f ltac:(lia)) as (D & V & N).
  destruct (dec_of_Z f) as [|c r] eqn:E; [congruence|]. cbn [sall] in D. pose proof D as D'. apply andb_true_iff in D as [Dc Dr].
  change (slen (String c r)) with (S (slen r)). rewrite Nat2Z.inj_succ. replace (Z.succ (Z.of_nat (slen r)) - 1) with (Z.of_nat (slen r)) by lia.
  unfold number in V. cbn [digits_val] in V. unfold is_digit in Dc.
  assert (c <> "0"%char) as Hc.
  { intros ->. rewrite dec_of_Z_cases in E. destruct (Z.ltb_spec f 0); [lia|]. apply dec_of_N_lead in E; auto. subst r. cbn in V. lia. }
  assert (code c <> 48%N) as Hc'. { intros X. apply Hc. unfold code in X. rewrite <- (ascii_N_embedding c), X. reflexivity. }
  pose proof (digits_val_bound r Dr (10 * 0 + (Z.of_N (code c) - 48)) ltac:(lia)) as B. rewrite V in B.
  rewrite Z.pow_succ_r by lia. set (p := 10 ^ Z.of_nat (slen r)) in *. assert (0 < p) by (subst p; apply Z.pow_pos_nonneg; lia).
  split; [nia|lia].
Qed.
Lemma fraction_exact f : 0 <= f < 1000000 ->
  (f * 1000000 / 10 ^ Z.of_nat (slen (dec_of_Z f)) = f <-> f = 0 \/ 100000 <= f).
Proof.
  intros H. destruct (Z.eq_dec f 0) as [->|Hf]; [split; auto|].
  destruct (dec_len f ltac:(lia)) as (B & K). set (k := Z.of_nat (slen (dec_of_Z f))) in *. assert (1 <= k) by lia.
  assert (k <= 6). { destruct (Z_le_gt_dec k 6); auto. pose proof (Z.pow_le_mono_r 10 6 (k - 1) ltac:(lia) ltac:(lia)). change (10 ^ 6) with 1000000 in *. lia. }
  split.
  - intros E. right. destruct (Z_le_gt_dec 100000 f); auto.
    assert (k <= 5). { destruct (Z_le_gt_dec k 5); auto. pose proof (Z.pow_le_mono_r 10 5 (k - 1) ltac:(lia) ltac:(lia)). change (10 ^ 5) with 100000 in *. lia. }
    assert (k = 1 \/ k = 2 \/ k = 3 \/ k = 4 \/ k = 5) as X by lia. exfalso.
    repeat destruct X as [X|X]; rewrite X in E;
    (match type of E with context [10 ^ ?e] => let v := eval vm_compute in (10 ^ e) in change (10 ^ e) with v in E end); zdiv.
  - intros [|]; [lia|]. assert (k = 6) as ->.
    { destruct (Z_le_gt_dec 6 k); [lia|]. pose proof (Z.pow_le_mono_r 10 k 5 ltac:(lia) ltac:(lia)). change (10 ^ 5) with 100000 in *. lia. }
    change (10 ^ 6) with 1000000. apply Z.div_mul. lia.
Qed.
Lemma iso_exact t : 0 <= t -> (denotes (iso8601 t) = Some t <-> t mod 1000000 = 0 \/ 100000 <= t mod 1000000).
Proof.
  intros H. rewrite (iso_denotes t H). rewrite <- (fraction_exact (t mod 1000000)) by (apply Z.mod_pos_bound; lia).
  set (x := _ / _). split; [intros [= E]; lia|intros ->; f_equal; lia].
Qed.
(** Two timestamps denote the same second exactly if the instants are in the same second. *)
Lemma iso_second t : 0 <= t -> exists u, denotes (iso8601 t) = Some u /\ u / 1000000 = t / 1000000.
Proof.
  intros H. eexists. split; [apply (iso_denotes t H)|].
  pose proof (Z.mod_pos_bound t 1000000 ltac:(lia)) as M.
  assert (0 <= t mod 1000000 * 1000000 / 10 ^ Z.of_nat (slen (dec_of_Z (t mod 1000000))) < 1000000) as F.
  { destruct (Z.eq_dec (t mod 1000000) 0) as [->|Hf]; [cbn; lia|].
    destruct (dec_len (t mod 1000000) ltac:(lia)) as (B & K).
    set (f := t mod 1000000) in *. set (p := 10 ^ Z.of_nat _) in *.
    split; [apply Z.div_pos; lia|]. apply Z.div_lt_upper_bound; nia. }
  set (x := _ / 10 ^ _) in *. clearbody x. zdiv.
Qed.
