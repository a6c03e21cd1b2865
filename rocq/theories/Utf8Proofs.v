(** Proofs about the UTF-8 DFA. *)
From Verif Require Import Base BaseFacts Utf8.
Ltac Zify.zify_post_hook ::= Z.div_mod_to_equations.

(** Byte range test. *)
Definition rng (a b : N) (c : ascii) : bool := ((a <=? code c) && (code c <=? b))%N.
Lemma rng_spec a b c : rng a b c = true <-> (a <= code c <= b)%N.
Proof. unfold rng. rewrite andb_true_iff, !N.leb_le. reflexivity. Qed.

(** Transition function by ranges. *)
Definition nxt (st : nat) (c : ascii) : nat :=
  match st with
  | 0 => if rng 0 0x7F c then 0
         else if rng 0xC2 0xDF c then 2
         else if rng 0xE0 0xE0 c then 4
         else if rng 0xED 0xED c then 5
         else if rng 0xE1 0xEF c then 3
         else if rng 0xF0 0xF0 c then 6
         else if rng 0xF1 0xF3 c then 7
         else if rng 0xF4 0xF4 c then 8 else 1
  | 2 => if rng 0x80 0xBF c then 0 else 1
  | 3 => if rng 0x80 0xBF c then 2 else 1
  | 4 => if rng 0xA0 0xBF c then 2 else 1
  | 5 => if rng 0x80 0x9F c then 2 else 1
  | 6 => if rng 0x90 0xBF c then 3 else 1
  | 7 => if rng 0x80 0xBF c then 3 else 1
  | 8 => if rng 0x80 0x8F c then 3 else 1
  | _ => 1
  end.

Lemma utf8_next_nxt st c : st <= 8 -> utf8_next st c = nxt st c.
Proof.
  intros H.
  assert (forallb (fun st => forallb (fun c => Nat.eqb (utf8_next st c) (nxt st c)) all_bytes) (seq 0 9) = true)
    as Hs by (vm_compute; reflexivity).
  rewrite forallb_forall in Hs. specialize (Hs st). rewrite in_seq in Hs.
  specialize (Hs ltac:(lia)). apply Nat.eqb_eq. now apply (forall_bytes (fun c => Nat.eqb (utf8_next st c) (nxt st c))).
Qed.
Lemma nxt_le st c : nxt st c <= 8.
Proof. unfold nxt. repeat (match goal with |- context [match ?x with _ => _ end] => destruct x end; try lia). Qed.
Lemma utf8_next_le st c : st <= 8 -> utf8_next st c <= 8.
Proof. intros H. rewrite utf8_next_nxt by auto. apply nxt_le. Qed.

(** The table is never read outside its bounds. *)
Lemma utf8_type_le c : utf8_type c <= 11.
Proof.
  assert (Nat.leb (utf8_type c) 11 = true) as H; [|now apply Nat.leb_le].
  apply (forall_bytes (fun c => Nat.leb (utf8_type c) 11)). vm_compute; reflexivity.
Qed.
Lemma utf8_index_in_range st c :
  st <= 8 -> N.to_nat (code c) < List.length utf8d /\ 256 + st * 16 + utf8_type c < List.length utf8d.
Proof.
  intros H. change (List.length utf8d) with 400. pose proof (code_lt c). pose proof (utf8_type_le c). lia.
Qed.

(** State-only run of the DFA. *)
Fixpoint urun (st : nat) (s : string) : nat :=
  match s with "" => st | String c s' => urun (nxt st c) s' end.
Lemma utf8_loop_urun s : forall st cp, st <= 8 -> utf8_loop st cp s = urun st s.
Proof.
  induction s as [|c s IH]; intros st cp H; [reflexivity|].
  cbn [utf8_loop urun]. unfold decode_utf8.
  rewrite IH by now apply utf8_next_le. now rewrite utf8_next_nxt.
Qed.
Lemma urun_app a b st : urun st (a +++ b) = urun (urun st a) b.
Proof. revert st; induction a as [|c a IH]; intros st; cbn; auto. Qed.
Lemma urun_1 s : urun 1 s = 1.
Proof. induction s; cbn; auto. Qed.
Lemma is_utf8_valid_urun s : is_utf8_valid s = Nat.eqb (urun 0 s) 0.
Proof. unfold is_utf8_valid. now rewrite utf8_loop_urun by lia. Qed.

(** Encodings run from state 0 to state 0. *)
Lemma rng_chr a b n : (n < 256)%N -> rng a b (chr n) = ((a <=? n) && (n <=? b))%N.
Proof. intros H. unfold rng. now rewrite code_chr. Qed.

Ltac rngb :=
  repeat match goal with
  | |- context [rng ?a ?b (chr ?n)] =>
      rewrite (rng_chr a b n) by lia;
      let E := fresh "E" in
      destruct ((a <=? n) && (n <=? b))%N eqn:E; try lia
  end.

Lemma urun_encode cp : scalar cp -> urun 0 (utf8_encode cp) = 0.
Proof.
  unfold scalar, utf8_encode. intros H.
  destruct (cp <? 0x80)%N eqn:E1; [cbn [urun nxt]; now rngb|].
  destruct (cp <? 0x800)%N eqn:E2.
  { cbn [urun]. unfold nxt at 2. rngb. unfold nxt. now rngb. }
  destruct (cp <? 0x10000)%N eqn:E3.
  { cbn [urun]. unfold nxt at 3. rngb; unfold nxt at 2; rngb; unfold nxt; now rngb. }
  { cbn [urun]. unfold nxt at 4. rngb; unfold nxt at 3; rngb; unfold nxt at 2; rngb; unfold nxt; now rngb. }
Qed.

Lemma utf8_text_valid s : utf8_text s -> is_utf8_valid s = true.
Proof.
  intros (cps & H & ->). rewrite is_utf8_valid_urun, Nat.eqb_eq.
  induction H as [|cp cps Hc _ IH]; cbn; auto. now rewrite urun_app, urun_encode.
Qed.

(** Conversely: from state 0 the DFA consumes one encoded scalar at a time. *)
Lemma chr_of c n : code c = n -> c = chr n.
Proof. intros <-. now rewrite chr_code. Qed.
Lemma rng_false_or a b c : rng a b c = false <-> (code c < a \/ b < code c)%N.
Proof. unfold rng. rewrite andb_false_iff, !N.leb_gt. reflexivity. Qed.

Lemma enc2 a b : (0xC2 <= code a <= 0xDF)%N -> (0x80 <= code b <= 0xBF)%N ->
  exists cp, scalar cp /\ utf8_encode cp = String a (String b "").
Proof.
  intros Ha Hb. exists ((code a - 0xC0) * 64 + (code b - 0x80))%N.
  unfold scalar, utf8_encode.
  destruct (_ <? 0x80)%N eqn:E1; [lia|]. destruct (_ <? 0x800)%N eqn:E2; [|lia].
  split; [lia|]. f_equal; [|f_equal]; symmetry; apply chr_of; lia.
Qed.
Lemma enc3 a b c :
  (0xE0 <= code a <= 0xEF)%N -> (0x80 <= code b <= 0xBF)%N -> (0x80 <= code c <= 0xBF)%N ->
  (code a = 0xE0 -> 0xA0 <= code b)%N -> (code a = 0xED -> code b <= 0x9F)%N ->
  exists cp, scalar cp /\ utf8_encode cp = String a (String b (String c "")).
Proof.
  intros Ha Hb Hc H1 H2. exists ((code a - 0xE0) * 4096 + (code b - 0x80) * 64 + (code c - 0x80))%N.
  unfold scalar, utf8_encode.
  destruct (_ <? 0x80)%N eqn:E1; [lia|]. destruct (_ <? 0x800)%N eqn:E2; [lia|].
  destruct (_ <? 0x10000)%N eqn:E3; [|lia].
  split; [lia|]. repeat f_equal; symmetry; apply chr_of; lia.
Qed.
Lemma enc4 a b c d :
  (0xF0 <= code a <= 0xF4)%N -> (0x80 <= code b <= 0xBF)%N -> (0x80 <= code c <= 0xBF)%N ->
  (0x80 <= code d <= 0xBF)%N ->
  (code a = 0xF0 -> 0x90 <= code b)%N -> (code a = 0xF4 -> code b <= 0x8F)%N ->
  exists cp, scalar cp /\ utf8_encode cp = String a (String b (String c (String d ""))).
Proof.
  intros Ha Hb Hc Hd H1 H2.
  exists ((code a - 0xF0) * 262144 + (code b - 0x80) * 4096 + (code c - 0x80) * 64 + (code d - 0x80))%N.
  unfold scalar, utf8_encode.
  destruct (_ <? 0x80)%N eqn:E1; [lia|]. destruct (_ <? 0x800)%N eqn:E2; [lia|].
  destruct (_ <? 0x10000)%N eqn:E3; [lia|].
  split; [lia|]. repeat f_equal; symmetry; apply chr_of; lia.
Qed.

Lemma urun_step0 c s :
  urun 0 (String c s) = 0 ->
  exists cp r, scalar cp /\ String c s = utf8_encode cp +++ r /\ urun 0 r = 0.
Proof.
  cbn [urun]. intros H. unfold nxt in H.
  assert (forall k, urun 1 k = 0 -> False) as N1 by (intros k Hk; rewrite urun_1 in Hk; discriminate).
  assert (Hone : rng 0 0x7F c = true -> exists cp r, scalar cp /\ String c s = utf8_encode cp +++ r /\ urun 0 r = urun 0 s).
  { intros E. apply rng_spec in E. exists (code c), s. split; [unfold scalar; lia|]. split; auto.
    unfold utf8_encode. destruct (_ <? 0x80)%N eqn:E1; [|lia]. cbn. now rewrite chr_code. }
  assert (H2 : forall s', urun 2 s' = 0 -> exists b r, s' = String b r /\ (0x80 <= code b <= 0xBF)%N /\ urun 0 r = 0).
  { intros [|b r] Hb; [discriminate|]. cbn [urun nxt] in Hb. destruct (rng 0x80 0xBF b) eqn:E; [|now apply N1 in Hb].
    apply rng_spec in E; eauto. }
  assert (H3 : forall s', urun 3 s' = 0 -> exists b r, s' = String b r /\ (0x80 <= code b <= 0xBF)%N /\ urun 2 r = 0).
  { intros [|b r] Hb; [discriminate|]. cbn [urun nxt] in Hb. destruct (rng 0x80 0xBF b) eqn:E; [|now apply N1 in Hb].
    apply rng_spec in E; eauto. }
  destruct (rng 0 0x7F c) eqn:Ea.
  { destruct (Hone eq_refl) as (cp & r & ? & ? & ?). exists cp, r. repeat split; auto. congruence. }
  destruct (rng 0xC2 0xDF c) eqn:Eb.
  { apply rng_spec in Eb. apply H2 in H as (b & r & -> & Hb & Hr).
    destruct (enc2 c b) as (cp & Hs & He); auto. exists cp, r. rewrite He. auto. }
  destruct (rng 0xE0 0xE0 c) eqn:Ec.
  { apply rng_spec in Ec. destruct s as [|b s]; [discriminate|]. cbn [urun nxt] in H.
    destruct (rng 0xA0 0xBF b) eqn:E; [|now apply N1 in H]. apply rng_spec in E.
    apply H2 in H as (d & r & -> & Hb & Hr).
    destruct (enc3 c b d) as (cp & Hs & He); try lia. exists cp, r. rewrite He. auto. }
  destruct (rng 0xED 0xED c) eqn:Ed.
  { apply rng_spec in Ed. destruct s as [|b s]; [discriminate|]. cbn [urun nxt] in H.
    destruct (rng 0x80 0x9F b) eqn:E; [|now apply N1 in H]. apply rng_spec in E.
    apply H2 in H as (d & r & -> & Hb & Hr).
    destruct (enc3 c b d) as (cp & Hs & He); try lia. exists cp, r. rewrite He. auto. }
  destruct (rng 0xE1 0xEF c) eqn:Ee.
  { apply rng_spec in Ee. apply rng_false_or in Ed, Ec. apply H3 in H as (b & s' & -> & Hb0 & H).
    apply H2 in H as (d & r & -> & Hb & Hr).
    destruct (enc3 c b d) as (cp & Hs & He); try lia. exists cp, r. rewrite He. auto. }
  destruct (rng 0xF0 0xF0 c) eqn:Ef.
  { apply rng_spec in Ef. destruct s as [|b s]; [discriminate|]. cbn [urun nxt] in H.
    destruct (rng 0x90 0xBF b) eqn:E; [|now apply N1 in H]. apply rng_spec in E.
    apply H3 in H as (d & s' & -> & Hb0 & H). apply H2 in H as (e & r & -> & Hb & Hr).
    destruct (enc4 c b d e) as (cp & Hs & He); try lia. exists cp, r. rewrite He. auto. }
  destruct (rng 0xF1 0xF3 c) eqn:Eg.
  { apply rng_spec in Eg. destruct s as [|b s]; [discriminate|]. cbn [urun nxt] in H.
    destruct (rng 0x80 0xBF b) eqn:E; [|now apply N1 in H]. apply rng_spec in E.
    apply H3 in H as (d & s' & -> & Hb0 & H). apply H2 in H as (e & r & -> & Hb & Hr).
    destruct (enc4 c b d e) as (cp & Hs & He); try lia. exists cp, r. rewrite He. auto. }
  destruct (rng 0xF4 0xF4 c) eqn:Eh.
  { apply rng_spec in Eh. destruct s as [|b s]; [discriminate|]. cbn [urun nxt] in H.
    destruct (rng 0x80 0x8F b) eqn:E; [|now apply N1 in H]. apply rng_spec in E.
    apply H3 in H as (d & s' & -> & Hb0 & H). apply H2 in H as (e & r & -> & Hb & Hr).
    destruct (enc4 c b d e) as (cp & Hs & He); try lia. exists cp, r. rewrite He. auto. }
  now apply N1 in H.
Qed.

Lemma encode_nonempty cp : 1 <= slen (utf8_encode cp).
Proof.
  unfold utf8_encode. destruct (_ <? _)%N; [cbn; lia|]. destruct (_ <? _)%N; [cbn; lia|].
  destruct (_ <? _)%N; cbn; lia.
Qed.

Lemma valid_utf8_text s : is_utf8_valid s = true -> utf8_text s.
Proof.
  rewrite is_utf8_valid_urun, Nat.eqb_eq.
  remember (slen s) as n eqn:Hn. assert (slen s <= n) as Hle by lia. clear Hn.
  revert s Hle. induction n as [|n IH]; intros s Hle H.
  - destruct s; [|cbn in Hle; lia]. exists []. split; [constructor | reflexivity].
  - destruct s as [|c s]; [exists []; split; [constructor | reflexivity]|].
    apply urun_step0 in H as (cp & r & Hs & He & Hr). rewrite He in Hle |- *.
    rewrite slen_app in Hle. pose proof (encode_nonempty cp).
    destruct (IH r) as (cps & Hc & ->); [lia|auto|].
    exists (cp :: cps). split; [now constructor | reflexivity].
Qed.

Lemma is_utf8_valid_spec s : is_utf8_valid s = true <-> utf8_text s.
Proof. split; [apply valid_utf8_text | apply utf8_text_valid]. Qed.
