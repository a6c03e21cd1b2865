(** Proofs about the framing of the debug adapter client. *)
From Verif Require Import Base BaseFacts Json JsonText JsonTextProofs Auth Message Dap DapSpec.

(** ** Strings *)
Lemma sdrop_add n m s : sdrop (n + m) s = sdrop m (sdrop n s).
Proof. revert s. induction n as [|n IH]; intros [|a s]; cbn; auto. destruct m; reflexivity. Qed.
Lemma sdrop_le n a b : n <= slen a -> sdrop n (a +++ b) = sdrop n a +++ b.
Proof. revert a. induction n as [|n IH]; intros [|x a] H; cbn in *; auto; [lia|]. apply IH. lia. Qed.
Lemma stake_le n a b : n <= slen a -> stake n (a +++ b) = stake n a.
Proof. revert a. induction n as [|n IH]; intros [|x a] H; cbn in *; auto; [lia|]. now rewrite IH by lia. Qed.
Lemma stake_ge n a b : slen a <= n -> stake n (a +++ b) = a +++ stake (n - slen a) b.
Proof. revert n. induction a as [|x a IH]; intros n H; cbn in *; [now rewrite Nat.sub_0_r|]. destruct n as [|n]; [lia|]. cbn. rewrite IH by lia. reflexivity. Qed.
Lemma stake_all n s : slen s <= n -> stake n s = s.
Proof. revert s. induction n as [|n IH]; intros [|x s] H; cbn in *; auto; [lia|]. now rewrite IH by lia. Qed.
Lemma sdrop_0 s : sdrop 0 s = s.
Proof. now destruct s. Qed.

(** ** find *)
Lemma sprefix_app p s t : sprefix p s = true -> sprefix p (s +++ t) = true.
Proof. rewrite !sprefix_spec. intros [r ->]. exists (r +++ t). now rewrite sapp_assoc. Qed.
Lemma sfind0_app p s t n : sfind0 p s = Some n -> sfind0 p (s +++ t) = Some n.
Proof.
  revert n. induction s as [|x s IH]; intros n H.
  - cbn in *. destruct (sprefix p "") eqn:E; [|discriminate]. injection H as <-. pose proof (sprefix_app p "" t E) as E'. cbn in E'.
    destruct t; cbn in *; now rewrite E'.
  - cbn in H. cbn. destruct (sprefix p (String x s)) eqn:E.
    + injection H as <-. pose proof (sprefix_app p _ t E) as E'. cbn in E'. now rewrite E'.
    + destruct (sfind0 p s) as [k|] eqn:F; [|discriminate]. injection H as <-.
      specialize (IH k eq_refl).
      destruct (sprefix p (String x (s +++ t))) eqn:G; [|now rewrite IH].
      (* the occurrence found later shows that [s] is long enough *)
      exfalso. assert (L : slen p <= slen s).
      { clear -F. revert k F. induction s as [|y s IHs]; intros k F; cbn in F.
        - destruct (sprefix p "") eqn:E; [|discriminate]. apply sprefix_spec in E. destruct E as [r E]. destruct p; [cbn; lia|discriminate].
        - destruct (sprefix p (String y s)) eqn:E.
          + apply sprefix_spec in E. destruct E as [r E]. apply (f_equal slen) in E. rewrite slen_app in E. cbn [slen] in *. lia.
          + destruct (sfind0 p s) as [k'|]; [|discriminate]. specialize (IHs k' eq_refl). cbn. lia. }
      assert (C : sprefix p (String x s) = true); [|congruence].
      apply sprefix_spec in G. destruct G as [r G]. change (String x (s +++ t)) with (String x s +++ t) in G.
      assert (P : p = stake (slen p) (String x s)).
      { rewrite <- (stake_le (slen p) (String x s) t) by (cbn; lia). rewrite G. now rewrite stake_app. }
      apply sprefix_spec. exists (sdrop (slen p) (String x s)). rewrite P at 1. symmetry. apply stake_sdrop.
Qed.
Lemma sfind0_len p s n : sfind0 p s = Some n -> n + slen p <= slen s.
Proof.
  revert n. induction s as [|y s IHs]; intros n F; cbn in F.
  - destruct (sprefix p "") eqn:E; [|discriminate]. injection F as <-. apply sprefix_spec in E. destruct E as [r E]. destruct p; [cbn; lia|discriminate].
  - destruct (sprefix p (String y s)) eqn:E.
    + injection F as <-. apply sprefix_spec in E. destruct E as [r E]. rewrite E, slen_app. lia.
    + destruct (sfind0 p s) as [k'|]; [|discriminate]. injection F as <-. specialize (IHs k' eq_refl). cbn. lia.
Qed.
Lemma sfind_app p s t from n : sfind p s from = Some n -> sfind p (s +++ t) from = Some n.
Proof.
  unfold sfind. destruct (from <=? slen s) eqn:L; [|discriminate]. apply Nat.leb_le in L.
  rewrite slen_app. replace (from <=? slen s + slen t) with true by (symmetry; apply Nat.leb_le; lia).
  rewrite sdrop_le by auto. destruct (sfind0 p (sdrop from s)) as [k|] eqn:E; [|discriminate].
  now rewrite (sfind0_app _ _ t _ E).
Qed.

(** ** The reading loops *)
Lemma read_until_spec pat hint : forall net buf,
  let '(net', buf', r) := read_until pat hint (sfind pat buf hint) buf net in
  exists used, net = (used ++ net')%list /\ buf' = buf +++ sconcat used /\ r = sfind pat buf' hint /\ (r = None -> net' = []).
Proof.
  induction net as [|x net IH]; intros buf.
  - cbn. destruct (sfind pat buf hint) as [p|] eqn:E; exists []; cbn; rewrite sapp_nil_r, E; repeat split; auto; discriminate.
  - cbn. destruct (sfind pat buf hint) as [p|] eqn:E.
    + exists []. cbn. rewrite sapp_nil_r, E. repeat split; auto; discriminate.
    + specialize (IH (buf +++ x)). destruct (read_until pat hint (sfind pat (buf +++ x) hint) (buf +++ x) net) as [[net' buf'] r].
      destruct IH as (used & -> & -> & Hr & Hn). exists (x :: used). cbn. rewrite sapp_assoc in *. auto.
Qed.
Lemma read_size_spec pos size : forall net buf,
  let '(net', buf', b) := read_size pos size buf net in
  exists used, net = (used ++ net')%list /\ buf' = buf +++ sconcat used /\
    (if b then (size <= N.of_nat (slen buf' - pos))%N else net' = [] /\ (N.of_nat (slen buf' - pos) < size)%N).
Proof.
  induction net as [|x net IH]; intros buf; cbn.
  - destruct (N.of_nat (slen buf - pos) <? size)%N eqn:E; exists []; cbn; rewrite sapp_nil_r; repeat split; auto; lia.
  - destruct (N.of_nat (slen buf - pos) <? size)%N eqn:E.
    + specialize (IH (buf +++ x)). destruct (read_size pos size (buf +++ x) net) as [[net' buf'] b].
      destruct IH as (used & -> & -> & H). exists (x :: used). cbn. rewrite sapp_assoc in *. auto.
    + exists []. cbn. rewrite sapp_nil_r. repeat split; auto. lia.
Qed.

(** ** The shape of a message *)
Local Opaque HEADER SEPARATOR.
Definition shaped (body t : string) : Prop :=
  exists pre mid, t = pre +++ HEADER +++ mid +++ SEPARATOR +++ body /\
    (forall x, sfind0 HEADER (pre +++ HEADER +++ x) = Some (slen pre)) /\
    (forall x, sfind0 SEPARATOR (mid +++ SEPARATOR +++ x) = Some (slen mid)) /\
    (forall x n, slen mid <= n -> stoull (stake n (mid +++ SEPARATOR +++ x)) = Ok (N.of_nat (slen body))).

Lemma app_split_le (a b c d : string) : a +++ b = c +++ d -> slen c <= slen a -> exists e, a = c +++ e /\ d = e +++ b.
Proof.
  revert c. induction a as [|x a IH]; intros [|y c] H L; cbn in *; try lia.
  - exists "". auto.
  - exists (String x a). auto.
  - injection H as -> H. destruct (IH c H) as (e & -> & ->); [lia|]. exists e. auto.
Qed.
Lemma forall2_app_l {A B} (R : A -> B -> Prop) l l1 l2 : Forall2 R l (l1 ++ l2) -> exists a b, l = (a ++ b)%list /\ Forall2 R a l1 /\ Forall2 R b l2.
Proof. intros H. apply Forall2_app_inv_r in H. destruct H as (a & b & H1 & H2 & ->). eauto. Qed.

(** One call: the messages pushed are the contents of the first messages of the stream, in order; nothing
    of the following messages is consumed. *)
Lemma frame_loop_ok (R : string -> string -> Prop) : (forall b t, R b t -> shaped b t) -> forall fuel buf hint net queue bodies ts rest,
  Forall2 R bodies ts -> hint <= slen buf -> sdrop hint buf +++ sconcat net +++ rest = sconcat ts ->
  slen (sdrop hint buf +++ sconcat net) < fuel ->
  exists b1 b2 ts2 used net' o, frame_loop fuel buf (sfind HEADER buf hint) hint net queue = (net', (queue ++ b1)%list, o) /\
    bodies = (b1 ++ b2)%list /\ net = (used ++ net')%list /\
    ((o = Waits /\ net' = [] /\ (rest = "" -> bodies = [])) \/
     (o = Done tt /\ b1 <> [] /\ Forall2 R b2 ts2 /\ sconcat net' +++ rest = sconcat ts2 /\ exists t ts1, ts = (t :: ts1 ++ ts2)%list /\ 0 < slen t)).
Proof.
  intros HR. induction fuel as [|fuel IH]; intros buf hint net queue bodies ts rest Hts Hh Hs Hf; [lia|].
  cbn [frame_loop].
  pose proof (read_until_spec HEADER hint net buf) as R1.
  destruct (read_until HEADER hint (sfind HEADER buf hint) buf net) as [[net1 buf1] r1]. destruct R1 as (u1 & -> & -> & Hr1 & Hn1).
  rewrite sconcat_app in *.
  assert (Hh1 : hint <= slen (buf +++ sconcat u1)) by (rewrite slen_app; lia).
  assert (D1 : sdrop hint (buf +++ sconcat u1) = sdrop hint buf +++ sconcat u1) by now apply sdrop_le.
  destruct r1 as [hp|].
  2:{ exists [], bodies, [], u1, net1, Waits. rewrite app_nil_r. repeat split; auto. left. split; auto. split; auto. intros ->.
      destruct Hts as [|body t bs ts Ht Hts]; auto. exfalso. destruct (HR _ _ Ht) as (pre & mid & -> & F1 & _).
      rewrite Hn1 in Hs by auto. cbn in Hs. rewrite !sapp_nil_r in Hs.
      unfold sfind in Hr1. replace (hint <=? slen (buf +++ sconcat u1)) with true in Hr1 by (symmetry; apply Nat.leb_le; lia).
      rewrite D1, Hs in Hr1. cbn [sconcat] in Hr1. rewrite !sapp_assoc in Hr1. rewrite F1 in Hr1. discriminate. }
  unfold sfind in Hr1. replace (hint <=? slen (buf +++ sconcat u1)) with true in Hr1 by (symmetry; apply Nat.leb_le; lia).
  rewrite D1 in Hr1. destruct (sfind0 HEADER (sdrop hint buf +++ sconcat u1)) as [q1|] eqn:E1; [|discriminate]. injection Hr1 as Hr1.
  destruct Hts as [|body t bs ts Ht Hts].
  { exfalso. cbn in Hs. apply (f_equal slen) in Hs. rewrite !slen_app in Hs. cbn in Hs. apply sfind0_len in E1. change (slen HEADER) with 16 in E1. rewrite slen_app in E1. lia. }
  destruct (HR _ _ Ht) as (pre & mid & -> & F1 & F2 & F3).
  cbn [sconcat] in Hs.
  assert (Q1 : q1 = slen pre).
  { pose proof (sfind0_app _ _ (sconcat net1 +++ rest) _ E1) as X. rewrite !sapp_assoc in X. rewrite !sapp_assoc in Hs. rewrite Hs in X.
    rewrite F1 in X. now injection X. }
  subst q1. pose proof (sfind0_len _ _ _ E1) as L1. change (slen HEADER) with 16 in L1.
  set (buf1 := buf +++ sconcat u1) in *. set (hint1 := hp + HEADER_LENGTH). assert (EH : hint1 = hint + (slen pre + 16)) by (unfold hint1, HEADER_LENGTH; lia).
  assert (Hb1 : slen (sdrop hint buf1) = slen buf1 - hint) by apply sdrop_len.
  assert (Hh1' : hint1 <= slen buf1) by (rewrite D1 in Hb1; rewrite Hb1 in L1; lia).
  assert (S1 : sdrop hint1 buf1 +++ sconcat net1 +++ rest = mid +++ SEPARATOR +++ body +++ sconcat ts).
  { rewrite EH, sdrop_add, D1. rewrite !sapp_assoc in Hs.
    replace (sdrop hint buf +++ sconcat u1 +++ sconcat net1 +++ rest) with ((sdrop hint buf +++ sconcat u1) +++ sconcat net1 +++ rest) in Hs by now rewrite !sapp_assoc.
    rewrite <- sdrop_le by exact L1. rewrite Hs. rewrite sdrop_add. rewrite sdrop_app by reflexivity. now rewrite sdrop_app by reflexivity. }
  pose proof (read_until_spec SEPARATOR hint1 net1 buf1) as R2.
  destruct (read_until SEPARATOR hint1 (sfind SEPARATOR buf1 hint1) buf1 net1) as [[net2 buf2] r2]. destruct R2 as (u2 & -> & -> & Hr2 & Hn2).
  rewrite sconcat_app in *.
  assert (D2 : sdrop hint1 (buf1 +++ sconcat u2) = sdrop hint1 buf1 +++ sconcat u2) by now apply sdrop_le.
  unfold sfind in Hr2. replace (hint1 <=? slen (buf1 +++ sconcat u2)) with true in Hr2 by (symmetry; apply Nat.leb_le; rewrite slen_app; lia).
  rewrite D2 in Hr2.
  destruct r2 as [sp|].
  2:{ exists [], (body :: bs), [], (u1 ++ u2)%list, net2, Waits. rewrite app_nil_r, <- app_assoc. repeat split; auto. left. split; auto. split; auto. intros ->. exfalso.
      rewrite Hn2 in S1 by auto. cbn in S1. rewrite !sapp_nil_r in S1. rewrite S1, F2 in Hr2. discriminate. }
  destruct (sfind0 SEPARATOR (sdrop hint1 buf1 +++ sconcat u2)) as [q2|] eqn:E2; [|discriminate]. injection Hr2 as Hr2.
  assert (Q2 : q2 = slen mid).
  { pose proof (sfind0_app _ _ (sconcat net2 +++ rest) _ E2) as X. rewrite !sapp_assoc in X. rewrite !sapp_assoc in S1. rewrite S1 in X.
    rewrite F2 in X. now injection X. }
  subst q2. pose proof (sfind0_len _ _ _ E2) as L2. change (slen SEPARATOR) with 4 in L2.
  set (buf2 := buf1 +++ sconcat u2) in *. assert (Hb2 : slen (sdrop hint1 buf2) = slen buf2 - hint1) by apply sdrop_len.
  rewrite D2 in Hb2. rewrite Hb2 in L2.
  assert (X2 : exists x, sdrop hint1 buf2 = mid +++ SEPARATOR +++ x /\ body +++ sconcat ts = x +++ sconcat net2 +++ rest).
  { destruct (app_split_le (sdrop hint1 buf2) (sconcat net2 +++ rest) (mid +++ SEPARATOR) (body +++ sconcat ts)) as (x & X1 & X2).
    - rewrite D2. rewrite !sapp_assoc in *. exact S1.
    - rewrite slen_app, sdrop_len. change (slen SEPARATOR) with 4. lia.
    - exists x. rewrite sapp_assoc in X1. auto. }
  destruct X2 as (x & X1 & X2).
  unfold substr. replace (hp + HEADER_LENGTH) with hint1 by reflexivity.
  replace (hint1 <=? slen buf2) with true by (symmetry; apply Nat.leb_le; unfold buf2; rewrite slen_app; lia).
  cbn [bind]. rewrite X1, F3 by lia. set (pos := sp + SEPARATOR_LENGTH). assert (EP : pos = hint1 + (slen mid + 4)) by (unfold pos, SEPARATOR_LENGTH; lia).
  assert (S2 : sdrop pos buf2 = x).
  { rewrite EP, sdrop_add, X1. replace (mid +++ SEPARATOR +++ x) with ((mid +++ SEPARATOR) +++ x) by now rewrite sapp_assoc. apply sdrop_app. rewrite slen_app. reflexivity. }
  assert (LP : pos <= slen buf2) by (rewrite EP; lia).
  pose proof (read_size_spec pos (N.of_nat (slen body)) net2 buf2) as R3.
  destruct (read_size pos (N.of_nat (slen body)) buf2 net2) as [[net3 buf3] b3]. destruct R3 as (u3 & -> & -> & H3).
  rewrite sconcat_app in *.
  assert (D3 : sdrop pos (buf2 +++ sconcat u3) = x +++ sconcat u3) by (rewrite sdrop_le by auto; now rewrite S2).
  assert (L3 : slen (buf2 +++ sconcat u3) - pos = slen (x +++ sconcat u3)) by (rewrite <- D3; now rewrite sdrop_len).
  rewrite L3 in *.
  destruct b3; cbn [negb].
  2:{ exists [], (body :: bs), [], (u1 ++ u2 ++ u3)%list, net3, Waits. destruct H3 as [-> H3]. rewrite !app_nil_r. repeat split; auto. left. split; auto. split; auto.
      intros ->. exfalso. cbn in X2. rewrite !sapp_nil_r in X2. rewrite <- X2 in H3. rewrite slen_app in H3. lia. }
  rewrite sapp_assoc in X2. replace (x +++ sconcat u3 +++ sconcat net3 +++ rest) with ((x +++ sconcat u3) +++ sconcat net3 +++ rest) in X2 by now rewrite sapp_assoc.
  destruct (app_split_le (x +++ sconcat u3) (sconcat net3 +++ rest) body (sconcat ts)) as (y & Y1 & Y2); [auto|lia|].
  destruct (N.of_nat (slen (x +++ sconcat u3)) =? N.of_nat (slen body))%N eqn:E3.
  - exists [body], bs, ts, (u1 ++ u2 ++ u3)%list, net3, (Done tt). rewrite D3. rewrite Y1 in *. rewrite slen_app in E3.
    assert (y = "") by (destruct y; [reflexivity|cbn in E3; lia]). subst y. rewrite sapp_nil_r. rewrite <- !app_assoc. repeat split; auto.
    right. split; auto. split; [discriminate|]. repeat split; auto. eexists _, []. split; [reflexivity|]. rewrite !slen_app. change (slen HEADER) with 16. lia.
  - rewrite Nat2N.id, D3. rewrite Y1 in *. rewrite stake_app by reflexivity.
    set (buf3 := buf2 +++ sconcat u3) in *.
    assert (D4 : sdrop (pos + slen body) buf3 = y) by (rewrite sdrop_add, D3; now apply sdrop_app).
    destruct (IH buf3 (pos + slen body) net3 (queue ++ [body])%list bs ts rest) as (b1 & b2 & ts2 & used & net' & o & RL & -> & -> & H); auto.
    + rewrite slen_app in L3. assert (pos <= slen buf3) by (unfold buf3; rewrite slen_app; lia). lia.
    + rewrite D4. now rewrite Y2.
    + rewrite D4, slen_app. apply (f_equal slen) in Hs. apply (f_equal slen) in Y2. rewrite !slen_app in *. change (slen HEADER) with 16 in Hs. lia.
    + exists (body :: b1), b2, ts2, (u1 ++ u2 ++ u3 ++ used)%list, net', o. rewrite RL, <- !app_assoc. repeat split; auto.
      destruct H as [(-> & -> & H)|(-> & Hb & H)]; [left|right].
      * repeat split; auto. intros Hr. exfalso. specialize (H Hr). destruct b1; [|discriminate]. destruct b2; [|discriminate].
        assert (ts = []) by now inversion Hts. assert (slen y = 0) by (apply (f_equal slen) in Y2; rewrite slen_app in Y2; rewrite H0 in Y2; cbn in Y2; lia). rewrite slen_app in E3. lia.
      * destruct H as (G1 & G2 & t' & ts1 & G3 & G4). repeat split; auto; [discriminate|]. eexists _, (t' :: ts1). rewrite G3. split; [reflexivity|]. rewrite !slen_app. change (slen HEADER) with 16. lia.
Qed.

Theorem handle_tcp_ok (R : string -> string -> Prop) net queue bodies ts rest :
  (forall b t, R b t -> shaped b t) -> Forall2 R bodies ts -> sconcat net +++ rest = sconcat ts ->
  exists b1 b2 ts2 used net' o, handle_tcp net queue = (net', (queue ++ b1)%list, o) /\
    bodies = (b1 ++ b2)%list /\ net = (used ++ net')%list /\
    ((o = Waits /\ net' = [] /\ (rest = "" -> bodies = [])) \/
     (o = Done tt /\ b1 <> [] /\ used <> [] /\ Forall2 R b2 ts2 /\ sconcat net' +++ rest = sconcat ts2)).
Proof.
  intros HR Hts Hs. destruct (frame_loop_ok R HR (S (slen (sconcat net))) "" 0 net queue bodies ts rest) as (b1 & b2 & ts2 & used & net' & o & E & Eb & En & H); auto; try (cbn; lia).
  exists b1, b2, ts2, used, net', o. repeat split; auto. destruct H as [H|(H1 & H2 & H3 & H4 & t & ts1 & H5 & H6)]; [auto|]. right. repeat split; auto.
  intros ->. cbn in En. subst net'. rewrite H4, H5 in Hs. cbn [sconcat] in Hs. apply (f_equal slen) in Hs. rewrite sconcat_app, !slen_app in Hs. lia.
Qed.

(** ** Messages of the protocol have this shape *)
Local Transparent HEADER SEPARATOR.
Lemma header_CR : sall (fun c => negb (code c =? 13)%N) HEADER = true. Proof. reflexivity. Qed.
Lemma sprefix_stop p f c y : sall (fun d => negb (code d =? code c)%N) p = true -> sprefix p (f +++ String c y) = sprefix p f.
Proof.
  revert f. induction p as [|a p IH]; intros f H; [now destruct f|]. cbn in H. apply andb_true_iff in H. destruct H as [Ha H].
  destruct f as [|b f]; cbn.
  - destruct (Ascii.eqb_spec a c); [subst; lia|reflexivity].
  - now rewrite IH.
Qed.
Lemma not_contains_tail p a f : ~ contains p (String a f) -> ~ contains p f.
Proof. intros H (u & v & ->). apply H. exists (String a u), v. reflexivity. Qed.
Lemma not_contains_prefix p f : ~ contains p f -> sprefix p f = false.
Proof. intros H. destruct (sprefix p f) eqn:E; auto. exfalso. apply H. apply sprefix_spec in E. destruct E as [r ->]. exists "", r. reflexivity. Qed.
Lemma option_map_map {A B C} (f : A -> B) (g : B -> C) o : option_map g (option_map f o) = option_map (fun x => g (f x)) o.
Proof. now destruct o. Qed.
Lemma sfind0_step p a s : sprefix p (String a s) = false -> sfind0 p (String a s) = option_map S (sfind0 p s).
Proof. intros H. cbn. cbn in H. now rewrite H. Qed.

Lemma header_field f y : ~ contains HEADER f -> sfind0 HEADER (f +++ CRLF +++ y) = option_map (Nat.add (slen f + 2)) (sfind0 HEADER y).
Proof.
  induction f as [|a f IH]; intros H.
  - unfold CRLF. cbn [append]. rewrite !sfind0_step by reflexivity. rewrite option_map_map. now destruct (sfind0 HEADER y).
  - cbn [append]. rewrite sfind0_step.
    + rewrite IH by (eapply not_contains_tail; eauto). rewrite option_map_map. now destruct (sfind0 HEADER y).
    + change (String a (f +++ CRLF +++ y)) with (String a f +++ String (chr 13) (String (chr 10) y)). rewrite sprefix_stop by reflexivity.
      now apply not_contains_prefix.
Qed.
Lemma header_pre before x : Forall (fun f => ~ contains HEADER f) before ->
  sfind0 HEADER (sconcat (map (fun f => f +++ CRLF) before) +++ HEADER +++ x) = Some (slen (sconcat (map (fun f => f +++ CRLF) before))).
Proof.
  induction 1 as [|f l Hf Hl IH].
  - reflexivity.
  - cbn [map sconcat]. rewrite !sapp_assoc. rewrite header_field by auto. rewrite IH. cbn [option_map]. f_equal. rewrite !slen_app. cbn. lia.
Qed.
Definition no_cr (f : string) : Prop := sall (fun c => negb (code c =? 13)%N) f = true.
Lemma sep_line f y : no_cr f -> sfind0 SEPARATOR (f +++ CRLF +++ y) = if sprefix CRLF y then Some (slen f) else option_map (Nat.add (slen f + 2)) (sfind0 SEPARATOR y).
Proof.
  unfold no_cr. induction f as [|a f IH]; intros H.
  - cbn [append]. change (sfind0 SEPARATOR (CRLF +++ y)) with (if sprefix SEPARATOR (CRLF +++ y) then Some 0 else option_map S (sfind0 SEPARATOR (String (chr 10) y))).
    change (sprefix SEPARATOR (CRLF +++ y)) with (sprefix CRLF y). destruct (sprefix CRLF y); auto.
    rewrite sfind0_step by reflexivity. rewrite option_map_map. now destruct (sfind0 SEPARATOR y).
  - cbn [append]. cbn [sall] in H. apply andb_true_iff in H. destruct H as [Ha H]. rewrite sfind0_step.
    + rewrite IH by auto. destruct (sprefix CRLF y); auto. rewrite option_map_map. now destruct (sfind0 SEPARATOR y).
    + change (sprefix SEPARATOR (String a (f +++ CRLF +++ y))) with (Ascii.eqb (chr 13) a && sprefix (String (chr 10) CRLF) (f +++ CRLF +++ y)).
      destruct (Ascii.eqb_spec (chr 13) a); [subst; discriminate|reflexivity].
Qed.
Lemma field_no_cr f : field f -> no_cr f.
Proof.
  intros [_ H]. unfold no_cr. induction f as [|a f IH]; auto. cbn in *. apply andb_true_iff in H. destruct H as [H1 H2].
  apply andb_true_iff in H1. rewrite (proj1 H1), IH; auto.
Qed.
Lemma field_not_crlf f y : field f -> sprefix CRLF (f +++ y) = false.
Proof.
  intros [N H]. destruct f as [|a f]; [contradiction|]. cbn in H. apply andb_true_iff in H. destruct H as [H _]. apply andb_true_iff in H. destruct H as [H _].
  change (sprefix CRLF (String a f +++ y)) with (Ascii.eqb (chr 13) a && sprefix (String (chr 10) "") (f +++ y)).
  destruct (Ascii.eqb_spec (chr 13) a); [subst; discriminate|reflexivity].
Qed.
Definition cr_fields (after : list string) : string := sconcat (map (fun f => CRLF +++ f) after).
Lemma sep_mid after : forall d x, no_cr d -> Forall field after ->
  sfind0 SEPARATOR ((d +++ cr_fields after) +++ SEPARATOR +++ x) = Some (slen (d +++ cr_fields after)).
Proof.
  unfold cr_fields. induction after as [|f after IH]; intros d x Hd Hf.
  - cbn [map sconcat]. rewrite sapp_nil_r. change (SEPARATOR +++ x) with (CRLF +++ CRLF +++ x). rewrite sep_line by auto. reflexivity.
  - inversion Hf as [|? ? F1 F2]; subst. cbn [map sconcat]. rewrite !sapp_assoc. rewrite sep_line by auto. rewrite field_not_crlf by auto.
    specialize (IH f x (field_no_cr _ F1) F2). rewrite !sapp_assoc in IH. rewrite IH. cbn [option_map]. f_equal. rewrite !slen_app. cbn [slen CRLF]. lia.
Qed.
Lemma digits_no_cr d : sall is_digit d = true -> no_cr d.
Proof.
  unfold no_cr. induction d as [|a d IH]; auto. cbn. rewrite !andb_true_iff. intros [H1 H2]. split; auto. unfold is_digit in H1. lia.
Qed.
Lemma stoull_digits n w : (n < 2 ^ 64)%N -> nodigit w = true -> stoull (dec_of_N n +++ w) = Ok n.
Proof.
  intros Hn Hw. unfold stoull. pose proof (dec_of_N_digits n) as Hd. pose proof (dec_of_N_nonempty n) as Hne. pose proof (span_digits_app _ _ Hd Hw) as Hs.
  pose proof (dec_of_N_val n) as Hv.
  destruct (dec_of_N n) as [|a d]; [contradiction|]. cbn [append] in *. cbn in Hd. apply andb_true_iff in Hd. destruct Hd as [Ha _]. unfold is_digit in Ha.
  cbn [skip_space]. replace (is_space a) with false by (unfold is_space; lia).
  replace (code a =? 45)%N with false by lia. replace (code a =? 43)%N with false by lia. rewrite Hs, Hv.
  unfold ullong_max. destruct (Z.leb_spec (Z.of_N n) (2 ^ 64 - 1)); [|lia]. now rewrite N2Z.id.
Qed.
Lemma nodigit_mid after k x : nodigit (cr_fields after +++ stake k (SEPARATOR +++ x)) = true.
Proof. destruct after; [|reflexivity]. destruct k; reflexivity. Qed.

Lemma header_shape before n after : dap_header before n after =
  sconcat (map (fun f => f +++ CRLF) before) +++ HEADER +++ (dec_of_nat n +++ cr_fields after) +++ SEPARATOR.
Proof.
  unfold dap_header. rewrite !map_app, !sconcat_app. cbn [map sconcat]. rewrite !sapp_assoc. f_equal. change "Content-Length: " with HEADER. do 2 f_equal.
  unfold cr_fields. cbn [append]. induction after as [|f after IH]; [reflexivity|]. cbn [map sconcat]. rewrite !sapp_assoc, IH. reflexivity.
Qed.
Lemma message_shaped body t : dap_message body t -> shaped body t.
Proof.
  intros (before & after & Hb & Ha & Hc & Hn & ->). exists (sconcat (map (fun f => f +++ CRLF) before)), (dec_of_nat (slen body) +++ cr_fields after).
  pose proof (dec_of_N_digits (N.of_nat (slen body))) as Hd. fold (dec_of_nat (slen body)) in Hd.
  repeat split.
  - rewrite header_shape. now rewrite !sapp_assoc.
  - intros x. now apply header_pre.
  - intros x. apply sep_mid; auto. now apply digits_no_cr.
  - intros x k L. rewrite stake_ge by auto. rewrite sapp_assoc. apply stoull_digits; auto. apply nodigit_mid.
Qed.
Lemma frame_message content : (N.of_nat (slen content) < 2 ^ 64)%N -> dap_message content (dap_frame content).
Proof.
  intros H. exists [], []. repeat split; auto. unfold dap_frame, dap_header. cbn [map app sconcat]. change "Content-Length: " with HEADER. now rewrite !sapp_assoc.
Qed.
