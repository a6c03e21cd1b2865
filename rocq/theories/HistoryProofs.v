(** Specifications and proofs about the history manager. *)
From Verif Require Import Base BaseFacts Json JsonText History.

(** ** Specification vocabulary *)
(** A successful reply with the given rows. *)
Definition ok_reply (rows : list (list string)) : json :=
  JObj [("history", JArr (List.map (fun r => JArr (List.map JStr r)) rows)); ("status", JStr "ok")].
(** Columns returned for an entry. *)
Definition columns (output : bool) (e : entry) : list string :=
  [h_session e; h_line e; h_input e] ++ (if output then [h_output e] else []).
(** The last [n] elements. *)
Definition lastn {A} (n : nat) (l : list A) : list A := skipn (List.length l - n) l.

Lemma row_columns o e : row o e = columns o e.
Proof. destruct o; reflexivity. Qed.
Lemma map_row o l : List.map (row o) l = List.map (columns o) l.
Proof. apply map_ext. intros; apply row_columns. Qed.
Lemma reply_ok_ok l : reply_ok l = ok_reply l.
Proof. reflexivity. Qed.

Lemma fold_cons {A B} (f : A -> B) l acc : fold_left (fun acc e => f e :: acc) l acc = rev (List.map f l) ++ acc.
Proof.
  revert acc; induction l as [|x l IH]; intros acc; cbn; auto. rewrite IH. now rewrite <- app_assoc.
Qed.

(** ** Tail *)
Lemma get_tail_spec n raw output h : (0 <= n)%Z ->
  get_tail n raw output h = Ok (ok_reply (List.map (columns output) (lastn (Z.to_nat n) h))).
Proof.
  intros Hn. unfold get_tail. destruct (Z.ltb_spec (Z.min n (Z.of_nat (List.length h))) 0); [lia|].
  rewrite reply_ok_ok, fold_cons, app_nil_r, <- map_rev, map_row, firstn_rev, rev_involutive. unfold lastn.
  do 4 f_equal. lia.
Qed.
Lemma get_tail_negative n raw output h : (n < 0)%Z -> is_ub (get_tail n raw output h) = true.
Proof. intros Hn. unfold get_tail. destruct (Z.ltb_spec (Z.min n (Z.of_nat (List.length h))) 0); [reflexivity|lia]. Qed.
Lemma lastn_spec {A} n (l : list A) : exists pre, l = pre ++ lastn n l /\ List.length (lastn n l) = Nat.min n (List.length l).
Proof.
  exists (firstn (List.length l - n) l). unfold lastn. split; [now rewrite firstn_skipn|]. rewrite skipn_length. lia.
Qed.

(** ** Range *)
Lemma get_range_ok session start stop raw output h :
  (0 <= start <= stop)%Z -> (start <= Z.of_nat (List.length h))%Z ->
  get_range session start stop raw output h =
    Ok (ok_reply (List.map (columns output) (firstn (Z.to_nat (stop - start)) (skipn (Z.to_nat start) h)))).
Proof.
  intros H1 H2. unfold get_range. destruct (Z.gtb_spec start stop); [lia|]. destruct (Z.gtb_spec start (Z.of_nat (List.length h))); [lia|].
  destruct (Z.ltb_spec start 0); [lia|]. cbn [orb]. rewrite reply_ok_ok, map_row. do 3 f_equal.
  destruct (Z.le_gt_cases stop (Z.of_nat (List.length h))).
  - f_equal. lia.
  - rewrite !firstn_all2; auto; rewrite skipn_length; lia.
Qed.
Lemma get_range_error session start stop raw output h :
  (start > stop \/ start > Z.of_nat (List.length h))%Z ->
  exists r, get_range session start stop raw output h = Ok r /\ jfield "status" r = Some (JStr "error") /\ jfield "history" r = None.
Proof.
  intros H. unfold get_range. replace ((start >? stop)%Z || (start >? Z.of_nat (List.length h))%Z) with true by lia.
  eexists; split; [reflexivity|]. split; reflexivity.
Qed.
Lemma get_range_ub session start stop raw output h :
  is_ub (get_range session start stop raw output h) = true <-> (start < 0 /\ start <= stop)%Z.
Proof.
  unfold get_range. destruct (Z.gtb_spec start stop), (Z.gtb_spec start (Z.of_nat (List.length h))), (Z.ltb_spec start 0); cbn;
    split; intros; try discriminate; auto; lia.
Qed.

(** ** Glob search *)
(** [glob p s]: the whole of [s] is matched by the glob [p]. *)
Inductive glob : string -> string -> Prop :=
| glob_nil : glob "" ""
| glob_any p c s : line_char c = true -> glob p s -> glob (String "?" p) (String c s)
| glob_star0 p s : glob p s -> glob (String "*" p) s
| glob_star p c s : line_char c = true -> glob (String "*" p) s -> glob (String "*" p) (String c s)
| glob_char p c s : c <> "?"%char -> c <> "*"%char -> glob p s -> glob (String c p) (String c s).
(** Some substring of [s] is matched. *)
Definition glob_in (p s : string) : Prop := exists a m b, s = a +++ m +++ b /\ glob p m.

Definition tok (c : ascii) : atom * bool :=
  if Ascii.eqb c "?" then (AAny, false) else if Ascii.eqb c "*" then (AAny, true) else (ALit c, false).
Fixpoint toks (p : string) : regex := match p with "" => [] | String c p' => tok c :: toks p' end.

Definition enc (c : ascii) : string :=
  if is_special c then String "\" (String c "") else if Ascii.eqb c "?" then "." else if Ascii.eqb c "*" then ".*" else String c "".
Lemma replace_chars_app f a b : replace_chars f (a +++ b) = replace_chars f a +++ replace_chars f b.
Proof. induction a as [|c a IH]; cbn; auto. now rewrite IH, sapp_assoc. Qed.
Lemma regex_of_glob_cons c p : regex_of_glob (String c p) = enc c +++ regex_of_glob p.
Proof.
  unfold regex_of_glob, sanitize. cbn [replace_chars]. rewrite !replace_chars_app. f_equal.
  apply String.eqb_eq. revert c.
  apply (forall_bytes (fun c => String.eqb
     (replace_chars (fun c0 => if Ascii.eqb c0 "*" then Some ".*" else None)
     (replace_chars (fun c0 => if Ascii.eqb c0 "?" then Some "." else None)
        match (if is_special c then Some (String "\" (String c "")) else None) with Some r => r | None => String c "" end)) (enc c))).
  vm_compute. reflexivity.
Qed.
Definition nostar (s : string) : bool := match s with String c _ => negb (Ascii.eqb c "*") | "" => true end.
Lemma enc_nostar c r : nostar (enc c +++ r) = true.
Proof.
  pose proof (forall_bytes (fun c => match enc c with String x _ => negb (Ascii.eqb x "*") | "" => false end) eq_refl c) as H.
  cbv beta in H. destruct (enc c) as [|x e]; [discriminate|]. exact H.
Qed.
Lemma regex_nostar p : nostar (regex_of_glob p) = true.
Proof. destruct p as [|c p]; [reflexivity|]. rewrite regex_of_glob_cons. apply enc_nostar. Qed.

Definition no_backslash (p : string) : bool := sall (fun c => negb (Ascii.eqb c "\")) p.
Lemma compile_plain c r : c <> "\"%char -> rx_syntax c = false -> nostar r = true ->
  rx_compile (String c r) = rx_cons (if Ascii.eqb c "." then AAny else ALit c) false (rx_compile r).
Proof.
  intros H1 H2 H3. cbn [rx_compile]. destruct (Ascii.eqb_spec c "\"); [congruence|]. rewrite H2.
  destruct r as [|e r]; auto. cbn in H3. destruct (Ascii.eqb e "*"); [discriminate|reflexivity].
Qed.
Lemma compile_esc c r : is_alnum c = false -> Ascii.eqb c "_" = false -> nostar r = true ->
  rx_compile (String "\" (String c r)) = rx_cons (ALit c) false (rx_compile r).
Proof.
  intros H1 H2 H3. cbn [rx_compile]. rewrite Ascii.eqb_refl, H1, H2. cbn [orb].
  destruct r as [|e r]; auto. cbn in H3. destruct (Ascii.eqb e "*"); [discriminate|reflexivity].
Qed.
Lemma compile_enc c r : c <> "\"%char -> nostar r = true ->
  rx_compile (enc c +++ r) = rx_cons (fst (tok c)) (snd (tok c)) (rx_compile r).
Proof.
  intros Hc Hr. unfold enc, tok. destruct (is_special c) eqn:Es.
  - pose proof (forall_bytes (fun c => implb (is_special c) (negb (is_alnum c) && negb (Ascii.eqb c "_") && negb (Ascii.eqb c "?") && negb (Ascii.eqb c "*"))) eq_refl c) as H.
    cbv beta in H. rewrite Es in H. cbn [implb] in H. rewrite !andb_true_iff, !negb_true_iff in H. destruct H as [[[H1 H2] H3] H4].
    rewrite H3, H4. cbn [append fst snd]. now apply compile_esc.
  - destruct (Ascii.eqb_spec c "?") as [->|Hq].
    + cbn [append]. rewrite compile_plain by (auto; discriminate). reflexivity.
    + destruct (Ascii.eqb_spec c "*") as [->|Hs].
      * cbn [append]. reflexivity.
      * cbn [append]. pose proof (forall_bytes (fun c => implb (negb (is_special c) && negb (Ascii.eqb c "\") && negb (Ascii.eqb c "?") && negb (Ascii.eqb c "*")) (negb (rx_syntax c) && negb (Ascii.eqb c "."))) eq_refl c) as H.
        cbv beta in H. rewrite Es in H. apply Ascii.eqb_neq in Hq, Hs. rewrite Hq, Hs in H. assert (Hc' := Hc). apply Ascii.eqb_neq in Hc'. rewrite Hc' in H.
        cbn [negb andb implb] in H. rewrite andb_true_iff, !negb_true_iff in H. destruct H as [H1 H2].
        rewrite compile_plain by auto. now rewrite H2.
Qed.
Lemma compile_glob p : no_backslash p = true -> rx_compile (regex_of_glob p) = RxOk (toks p).
Proof.
  induction p as [|c p IH]; [reflexivity|]. unfold no_backslash. cbn [sall]. rewrite andb_true_iff, negb_true_iff. intros [H1 H2].
  rewrite regex_of_glob_cons, compile_enc; [|now apply Ascii.eqb_neq|apply regex_nostar].
  rewrite IH by auto. cbn. now destruct (tok c).
Qed.

(** Matching of the token list is glob matching. *)
Lemma rx_star_unfold a r s : rx_prefix ((a, true) :: r) s =
  rx_prefix r s || match s with String c s' => atom_match a c && rx_prefix ((a, true) :: r) s' | "" => false end.
Proof. destruct s; reflexivity. Qed.
Lemma rx_prefix_glob p : forall s, rx_prefix (toks p) s = true <-> exists m b, s = m +++ b /\ glob p m.
Proof.
  induction p as [|c p IH]; intros s.
  - cbn. split; [|reflexivity]. intros _. exists "", s. split; auto. constructor.
  - cbn [toks]. unfold tok. destruct (Ascii.eqb_spec c "?") as [->|Hq]; [|destruct (Ascii.eqb_spec c "*") as [->|Hs]].
    + destruct s as [|d s]; cbn.
      * split; [discriminate|]. intros (m & b & E & G). inversion G; subst; try discriminate; try congruence.
      * rewrite andb_true_iff, IH. split.
        -- intros [Hd (m & b & -> & G)]. exists (String d m), b. split; auto. now constructor.
        -- intros (m & b & E & G). inversion G; subst; try congruence. cbn in E. injection E as -> ->. eauto.
    + induction s as [|d s IHs].
      * rewrite rx_star_unfold, orb_false_r, IH. split.
        -- intros (m & b & E & G). exists m, b. split; auto. now constructor.
        -- intros (m & b & E & G). inversion G; subst; try congruence; try discriminate. eauto.
      * rewrite rx_star_unfold, orb_true_iff, andb_true_iff, IH, IHs. split.
        -- intros [(m & b & E & G)|[Hd (m & b & -> & G)]].
           ++ exists m, b. split; auto. now constructor.
           ++ exists (String d m), b. split; auto. now apply glob_star.
        -- intros (m & b & E & G). inversion G; subst; try congruence.
           ++ left. eauto.
           ++ right. cbn in E. injection E as -> ->. eauto.
    + destruct s as [|d s]; cbn.
      * split; [discriminate|]. intros (m & b & E & G). inversion G; subst; try discriminate; try congruence.
      * rewrite andb_true_iff, IH, Ascii.eqb_eq. split.
        -- intros [<- (m & b & -> & G)]. exists (String c m), b. split; auto. now constructor.
        -- intros (m & b & E & G). inversion G; subst; try congruence. cbn in E. injection E as -> ->. eauto.
Qed.
Lemma rx_search_glob p s : rx_search (toks p) s = true <-> glob_in p s.
Proof.
  unfold glob_in. induction s as [|c s IH]; cbn [rx_search]; rewrite orb_true_iff.
  - rewrite rx_prefix_glob. split.
    + intros [(m & b & E & G)|H]; [|discriminate]. exists "", m, b. auto.
    + intros (a & m & b & E & G). left. destruct a; [|discriminate]. cbn in E. eauto.
  - rewrite rx_prefix_glob, IH. split.
    + intros [(m & b & E & G)|(a & m & b & -> & G)]; [exists "", m, b; auto | exists (String c a), m, b; auto].
    + intros (a & m & b & E & G). destruct a as [|x a]; cbn in E; [left; eauto|]. injection E as -> ->. right. eauto.
Qed.

(** ** Runs of equal elements *)
(** [collapses l r]: [l] is a sequence of non-empty runs of equal elements, neighbouring runs being
    different, and [r] has one element per run. *)
Fixpoint adjacent_distinct {A} (l : list A) : Prop :=
  match l with x :: (y :: _) as l' => x <> y /\ adjacent_distinct l' | _ => True end.
Definition collapses {A} (l r : list A) : Prop :=
  exists runs : list (A * nat), l = List.concat (List.map (fun p => repeat (fst p) (S (snd p))) runs) /\
    r = List.map fst runs /\ adjacent_distinct r.

Lemma slist_eqb_spec a b : slist_eqb a b = true <-> a = b.
Proof.
  revert b; induction a as [|x a IH]; intros [|y b]; cbn; split; intros H; try discriminate; auto.
  - apply andb_true_iff in H as [H1 H2]. apply String.eqb_eq in H1 as ->. f_equal. now apply IH.
  - injection H as -> ->. rewrite String.eqb_refl. now apply IH.
Qed.
Lemma unique_from_runs l : forall x, exists k runs,
  l = (repeat x k ++ List.concat (List.map (fun p => repeat (fst p) (S (snd p))) runs))%list /\
  unique_from x l = List.map fst runs /\ adjacent_distinct (x :: List.map fst runs).
Proof.
  induction l as [|y l IH]; intros x.
  - exists 0, []. cbn. auto.
  - cbn [unique_from]. destruct (slist_eqb x y) eqn:E.
    + apply slist_eqb_spec in E as <-. destruct (IH x) as (k & runs & -> & H1 & H2). exists (S k), runs. auto.
    + destruct (IH y) as (k & runs & -> & H1 & H2). exists 0, ((y, k) :: runs). rewrite H1. cbn. repeat split; auto.
      intros ->. rewrite (proj2 (slist_eqb_spec y y) eq_refl) in E. discriminate.
Qed.
Lemma unique_collapses l : collapses l (unique l).
Proof.
  destruct l as [|x l]; [exists []; cbn; auto|]. cbn [unique].
  destruct (unique_from_runs l x) as (k & runs & -> & H1 & H2). exists ((x, k) :: runs). rewrite H1. cbn. auto.
Qed.
(** The collapsed list is determined by the specification. *)
Lemma collapses_fun {A} (l r1 r2 : list A) : (forall a b : A, {a = b} + {a <> b}) -> collapses l r1 -> collapses l r2 -> r1 = r2.
Proof.
  intros dec (u & -> & -> & Au) (v & E & -> & Av). revert v E Av.
  induction u as [|[x k] u IH]; intros v E Av.
  - destruct v as [|[y j] v]; [reflexivity|discriminate].
  - destruct v as [|[y j] v]; [discriminate|].
    assert (forall (w : list (A * nat)) z n, adjacent_distinct (z :: List.map fst w) ->
       forall m, repeat z n ++ List.concat (List.map (fun p => repeat (fst p) (S (snd p))) w) = m ->
       forall w' n', adjacent_distinct (z :: List.map fst w') -> repeat z n' ++ List.concat (List.map (fun p => repeat (fst p) (S (snd p))) w') = m -> n = n') as Runs.
    { intros w z n Aw. induction n as [|n IHn]; intros m Em w' n' Aw' Em'; destruct n' as [|n']; auto.
      - exfalso. subst m. cbn in Em'. destruct w as [|[q i] w]; cbn in *; [discriminate|]. injection Em' as -> _. tauto.
      - exfalso. subst m. cbn in Em'. destruct w' as [|[q i] w']; cbn in *; [discriminate|]. injection Em' as -> _. tauto.
      - f_equal. destruct m as [|m0 m]; [discriminate|]. cbn in Em, Em'. injection Em as _ Em. injection Em' as _ Em'. eapply IHn; eauto. }
    cbn in E. injection E as <- E. cbn [List.map fst] in *.
    assert (k = j) as <-. { eapply (Runs u x k Au); eauto. }
    apply app_inv_head in E. f_equal. apply IH; auto.
    + destruct (List.map fst u); cbn in *; tauto.
    + destruct (List.map fst v); cbn in *; tauto.
Qed.

(** ** Search results *)
Definition matching (p : string) (e : entry) : Prop := glob_in p (cstr (h_input e)).
(** [sel P l r]: [r] is the list of the elements of [l] with property [P], in order. *)
Inductive sel {A} (P : A -> Prop) : list A -> list A -> Prop :=
| sel_nil : sel P [] []
| sel_yes x l r : P x -> sel P l r -> sel P (x :: l) (x :: r)
| sel_no x l r : ~ P x -> sel P l r -> sel P (x :: l) r.
Lemma sel_filter {A} (P : A -> Prop) (f : A -> bool) l : (forall x, f x = true <-> P x) -> sel P l (filter f l).
Proof.
  intros H. induction l as [|x l IH]; cbn; [constructor|]. destruct (f x) eqn:E.
  - constructor; auto. now apply H.
  - constructor; auto. rewrite <- H, E. discriminate.
Qed.
Lemma sel_fun {A} (P : A -> Prop) l r1 r2 : sel P l r1 -> sel P l r2 -> r1 = r2.
Proof. intros H. revert r2. induction H; intros r2 H2; inversion H2; subst; try congruence; try tauto; f_equal; auto. Qed.

Lemma clean_history_spec n u l : (0 <= n)%Z ->
  clean_history n u l = Ok (lastn (Z.to_nat n) (if u then unique l else l)).
Proof.
  intros Hn. unfold clean_history, lastn. set (l' := if u then unique l else l).
  destruct (Z.gtb_spec (Z.of_nat (List.length l') - n) 0).
  - destruct (Z.gtb_spec (Z.of_nat (List.length l') - n) (Z.of_nat (List.length l'))); [lia|]. do 2 f_equal. lia.
  - replace (List.length l' - Z.to_nat n) with 0 by lia. reflexivity.
Qed.
Lemma clean_history_negative n u l : (n < 0)%Z -> is_ub (clean_history n u l) = true.
Proof.
  intros Hn. unfold clean_history. set (l' := if u then unique l else l).
  destruct (Z.gtb_spec (Z.of_nat (List.length l') - n) 0); [|lia].
  destruct (Z.gtb_spec (Z.of_nat (List.length l') - n) (Z.of_nat (List.length l'))); [reflexivity|lia].
Qed.

Lemma search_spec other p raw output n (u : bool) h : no_backslash p = true -> (0 <= n)%Z ->
  exists found kept, sel (matching p) h found /\
    (if u then collapses (List.map (columns output) found) kept else kept = List.map (columns output) found) /\
    search other p raw output n u h = Ok (ok_reply (lastn (Z.to_nat n) kept)).
Proof.
  intros Hp Hn. unfold search, compile_regex. rewrite compile_glob by auto. cbn [bind].
  rewrite clean_history_spec by auto. cbn [bind]. rewrite map_row, reply_ok_ok.
  exists (List.filter (fun e => rx_search (toks p) (cstr (h_input e))) h). eexists. split; [|split; [|reflexivity]].
  - apply sel_filter. intros e. apply rx_search_glob.
  - destruct u; [apply unique_collapses|reflexivity].
Qed.
Lemma search_negative other p raw output n u h : no_backslash p = true -> (n < 0)%Z ->
  is_ub (search other p raw output n u h) = true.
Proof.
  intros Hp Hn. unfold search, compile_regex. rewrite compile_glob by auto. cbn [bind].
  pose proof (clean_history_negative n u (List.map (row output) (filter (fun e => rx_search (toks p) (cstr (h_input e))) h)) Hn) as H.
  destruct (clean_history _ _ _); cbn in *; auto.
Qed.
(** A trailing lone backslash is rejected by the library. *)
Lemma sanitize_bs p : regex_of_glob (p +++ "\") = regex_of_glob p +++ "\".
Proof.
  induction p as [|c p IH]; [reflexivity|]. cbn [append]. rewrite !regex_of_glob_cons, IH. now rewrite sapp_assoc.
Qed.
Lemma compile_trailing_bs p : no_backslash p = true -> rx_compile (regex_of_glob (p +++ "\")) = RxError.
Proof.
  induction p as [|c p IH]; [reflexivity|]. unfold no_backslash. cbn [sall append]. rewrite andb_true_iff, negb_true_iff. intros [H1 H2].
  rewrite regex_of_glob_cons, compile_enc; [|now apply Ascii.eqb_neq|apply regex_nostar]. rewrite IH by auto. reflexivity.
Qed.
Lemma search_trailing_bs other p raw output n u h : no_backslash p = true ->
  search other (p +++ "\") raw output n u h = Exn regex_error.
Proof. intros Hp. unfold search, compile_regex. now rewrite compile_trailing_bs. Qed.

(** ** Requests *)
(** Fields of a request as the protocol defines them: absent means the default. *)
Definition str_field (m : list (string * json)) (k d : string) (v : string) : Prop :=
  (mfind k m = None /\ v = d) \/ mfind k m = Some (JStr v).
Definition bool_field (m : list (string * json)) (k : string) (d v : bool) : Prop :=
  (mfind k m = None /\ v = d) \/ mfind k m = Some (JBool v).
Definition int_field (m : list (string * json)) (k : string) (d v : Z) : Prop :=
  (mfind k m = None /\ v = d) \/ (mfind k m = Some (JInt v) /\ (int_min <= v <= int_max)%Z).

Lemma wrap32_id v : (int_min <= v <= int_max)%Z -> wrap32 v = v.
Proof.
  unfold wrap32, int_min, int_max. intros H. rewrite Z.mod_small; [lia|]. change (2 ^ 32)%Z with 4294967296%Z. change (2 ^ 31)%Z with 2147483648%Z in *. lia.
Qed.
Lemma value_string_field m k d v : str_field m k d v -> value_string k d (JObj m) = Ok v.
Proof. unfold value_string, jvalue. intros [[-> ->]| ->]; reflexivity. Qed.
Lemma value_bool_field m k d v : bool_field m k d v -> value_bool k d (JObj m) = Ok v.
Proof. unfold value_bool, jvalue. intros [[-> ->]| ->]; reflexivity. Qed.
Lemma value_int_field m k d v : int_field m k d v -> value_int k d (JObj m) = Ok v.
Proof. unfold value_int, jvalue. intros [[-> ->]|[-> H]]; [reflexivity|]. cbn [get_int]. now rewrite wrap32_id. Qed.

Lemma request_tail other m n raw output h :
  str_field m "hist_access_type" "tail" "tail" -> int_field m "n" 10 n -> bool_field m "raw" true raw -> bool_field m "output" false output ->
  (0 <= n)%Z -> process_request other (JObj m) h = Ok (ok_reply (List.map (columns output) (lastn (Z.to_nat n) h))).
Proof.
  intros H1 H2 H3 H4 Hn. unfold process_request.
  rewrite (value_string_field _ _ _ _ H1). cbn [bind]. change (String.eqb "tail" "tail") with true. cbv iota.
  rewrite (value_int_field _ _ _ _ H2), (value_bool_field _ _ _ _ H3), (value_bool_field _ _ _ _ H4). cbn [bind]. now apply get_tail_spec.
Qed.
Lemma request_range other m session start stop raw output h :
  str_field m "hist_access_type" "tail" "range" -> int_field m "session" 0 session -> int_field m "start" 1 start -> int_field m "stop" 10 stop ->
  bool_field m "raw" true raw -> bool_field m "output" false output ->
  process_request other (JObj m) h = get_range session start stop raw output h.
Proof.
  intros H1 H2 H3 H4 H5 H6. unfold process_request.
  rewrite (value_string_field _ _ _ _ H1). cbn [bind]. change (String.eqb "range" "tail") with false. change (String.eqb "range" "search") with false.
  change (String.eqb "range" "range") with true. cbv iota.
  rewrite (value_int_field _ _ _ _ H2), (value_int_field _ _ _ _ H3), (value_int_field _ _ _ _ H4), (value_bool_field _ _ _ _ H5), (value_bool_field _ _ _ _ H6). reflexivity.
Qed.
Lemma request_range_ok other m session start stop raw output h :
  str_field m "hist_access_type" "tail" "range" -> int_field m "session" 0 session -> int_field m "start" 1 start -> int_field m "stop" 10 stop ->
  bool_field m "raw" true raw -> bool_field m "output" false output ->
  (0 <= start <= stop)%Z -> (start <= Z.of_nat (List.length h))%Z ->
  process_request other (JObj m) h =
    Ok (ok_reply (List.map (columns output) (firstn (Z.to_nat (stop - start)) (skipn (Z.to_nat start) h)))).
Proof. intros. erewrite request_range by eauto. now apply get_range_ok. Qed.
Lemma request_search other m p raw output n (u : bool) h :
  str_field m "hist_access_type" "tail" "search" -> str_field m "pattern" "*" p -> bool_field m "raw" true raw -> bool_field m "output" false output ->
  int_field m "n" 10 n -> bool_field m "unique" false u -> no_backslash p = true -> (0 <= n)%Z ->
  exists found kept, sel (matching p) h found /\
    (if u then collapses (List.map (columns output) found) kept else kept = List.map (columns output) found) /\
    process_request other (JObj m) h = Ok (ok_reply (lastn (Z.to_nat n) kept)).
Proof.
  intros H1 H2 H3 H4 H5 H6 Hp Hn. unfold process_request.
  rewrite (value_string_field _ _ _ _ H1). cbn [bind]. change (String.eqb "search" "tail") with false. change (String.eqb "search" "search") with true. cbv iota.
  rewrite (value_string_field _ _ _ _ H2), (value_bool_field _ _ _ _ H3), (value_bool_field _ _ _ _ H4), (value_int_field _ _ _ _ H5), (value_bool_field _ _ _ _ H6).
  cbn [bind]. now apply search_spec.
Qed.
Lemma request_other other m t h : str_field m "hist_access_type" "tail" t -> ~ In t ["tail"; "search"; "range"] ->
  process_request other (JObj m) h = Ok JNull.
Proof.
  intros H1 H2. unfold process_request. rewrite (value_string_field _ _ _ _ H1). cbn [bind].
  destruct (String.eqb_spec t "tail"); [exfalso; apply H2; subst; cbn; auto|].
  destruct (String.eqb_spec t "search"); [exfalso; apply H2; subst; cbn; auto|].
  destruct (String.eqb_spec t "range"); [exfalso; apply H2; subst; cbn; auto|]. reflexivity.
Qed.

(** Exceptions of a request. *)
Definition lib_std (other : regex_lib) : Prop := forall p e, other p = Exn e -> is_std e = true.
Lemma jvalue_std {A} (get : json -> res A) k d j e : (forall v e, get v = Exn e -> is_std e = true) -> jvalue get k d j = Exn e -> is_std e = true.
Proof.
  intros H. unfold jvalue. destruct j; try (intros [= <-]; reflexivity). destruct (mfind k m); [apply H|discriminate].
Qed.
Lemma get_string_std v e : get_string v = Exn e -> is_std e = true.
Proof. destruct v; cbn; intros [= <-]; reflexivity. Qed.
Lemma get_bool_std v e : get_bool v = Exn e -> is_std e = true.
Proof. destruct v; cbn; intros [= <-]; reflexivity. Qed.
Lemma get_int_std v e : get_int v = Exn e -> is_std e = true.
Proof.
  destruct v; cbn [get_int]; try (intros [= <-]; reflexivity); try discriminate. destruct (float_trunc lit) as [z|]; [|discriminate]. destruct (in_int z); discriminate.
Qed.
Lemma value_string_std k d j e : value_string k d j = Exn e -> is_std e = true.
Proof. apply jvalue_std, get_string_std. Qed.
Lemma value_bool_std k d j e : value_bool k d j = Exn e -> is_std e = true.
Proof. apply jvalue_std, get_bool_std. Qed.
Lemma value_int_std k d j e : value_int k d j = Exn e -> is_std e = true.
Proof. apply jvalue_std, get_int_std. Qed.
Lemma bind_exn {A B} (r : res A) (f : A -> res B) e : bind r f = Exn e -> r = Exn e \/ exists a, r = Ok a /\ f a = Exn e.
Proof. destruct r; cbn; intros H; [right; eauto | left; congruence | discriminate]. Qed.
Lemma get_tail_noexn n raw output h e : get_tail n raw output h <> Exn e.
Proof. unfold get_tail. destruct (_ <? 0)%Z; discriminate. Qed.
Lemma get_range_noexn s a b raw output h e : get_range s a b raw output h <> Exn e.
Proof. unfold get_range. destruct (_ || _); [discriminate|]. destruct (_ <? 0)%Z; discriminate. Qed.
Lemma clean_history_noexn n u l e : clean_history n u l <> Exn e.
Proof. unfold clean_history. destruct (Z.gtb _ _); [|discriminate]. destruct (Z.gtb _ _); discriminate. Qed.
Lemma search_std other p raw output n u h e : lib_std other -> search other p raw output n u h = Exn e -> is_std e = true.
Proof.
  intros Ho H. unfold search in H. apply bind_exn in H as [H|(rx & _ & H)].
  - unfold compile_regex in H. destruct (rx_compile _); [discriminate|injection H as <-; reflexivity|]. eapply Ho; eauto.
  - apply bind_exn in H as [H|(l & _ & H)]; [now apply clean_history_noexn in H|discriminate].
Qed.
Ltac std_step H :=
  let a := fresh "a" in let E := fresh "E" in
  apply bind_exn in H as [H|(a & E & H)];
  [first [eapply value_string_std; exact H | eapply value_bool_std; exact H | eapply value_int_std; exact H] | clear E].
Lemma request_std other j h e : lib_std other -> process_request other j h = Exn e -> is_std e = true.
Proof.
  intros Ho H. unfold process_request in H. std_step H.
  destruct (String.eqb _ "tail").
  - do 3 std_step H. now apply get_tail_noexn in H.
  - destruct (String.eqb _ "search").
    + do 5 std_step H. eapply search_std; eauto.
    + destruct (String.eqb _ "range"); [|discriminate]. do 5 std_step H. now apply get_range_noexn in H.
Qed.

(** A field of the wrong type is an exception. *)
Definition wrong_string (m : list (string * json)) k : Prop := exists v, mfind k m = Some v /\ forall s, v <> JStr s.
Definition wrong_bool (m : list (string * json)) k : Prop := exists v, mfind k m = Some v /\ forall s, v <> JBool s.
(** Numbers and booleans convert to int. *)
Definition wrong_int (m : list (string * json)) k : Prop :=
  exists v, mfind k m = Some v /\ match v with JInt _ | JFloat _ | JBool _ => False | _ => True end.
Lemma value_string_wrong m k d : wrong_string m k -> value_string k d (JObj m) = Exn type_error_302.
Proof. intros (v & H & Hv). unfold value_string, jvalue. rewrite H. destruct v; try reflexivity. now destruct (Hv s). Qed.
Lemma value_bool_wrong m k d : wrong_bool m k -> value_bool k d (JObj m) = Exn type_error_302.
Proof. intros (v & H & Hv). unfold value_bool, jvalue. rewrite H. destruct v; try reflexivity. now destruct (Hv b). Qed.
Lemma value_int_wrong m k d : wrong_int m k -> value_int k d (JObj m) = Exn type_error_302.
Proof. intros (v & H & Hv). unfold value_int, jvalue. rewrite H. destruct v; try reflexivity; contradiction. Qed.
Lemma request_wrong other m h :
  wrong_string m "hist_access_type" \/
  (str_field m "hist_access_type" "tail" "tail" /\ wrong_int m "n") \/
  (str_field m "hist_access_type" "tail" "search" /\ wrong_string m "pattern") \/
  (str_field m "hist_access_type" "tail" "range" /\ wrong_int m "session") ->
  exists e, process_request other (JObj m) h = Exn e /\ is_std e = true.
Proof.
  unfold process_request. intros [H|[[H1 H2]|[[H1 H2]|[H1 H2]]]].
  - rewrite value_string_wrong by auto. cbn. eauto.
  - rewrite (value_string_field _ _ _ _ H1). cbn [bind]. change (String.eqb "tail" "tail") with true. cbv iota. rewrite value_int_wrong by auto. cbn. eauto.
  - rewrite (value_string_field _ _ _ _ H1). cbn [bind]. change (String.eqb "search" "tail") with false. change (String.eqb "search" "search") with true. cbv iota.
    rewrite value_string_wrong by auto. cbn. eauto.
  - rewrite (value_string_field _ _ _ _ H1). cbn [bind]. change (String.eqb "range" "tail") with false. change (String.eqb "range" "search") with false.
    change (String.eqb "range" "range") with true. cbv iota. rewrite value_int_wrong by auto. cbn. eauto.
Qed.
Lemma request_not_object other j h : (forall m, j <> JObj m) -> exists e, process_request other j h = Exn e /\ is_std e = true.
Proof. intros H. unfold process_request. destruct j; cbn; eauto. now destruct (H m). Qed.
Lemma request_undefined other m t n start stop session p raw output u h :
  str_field m "hist_access_type" "tail" t -> int_field m "n" 10 n -> int_field m "start" 1 start -> int_field m "stop" 10 stop ->
  int_field m "session" 0 session -> str_field m "pattern" "*" p -> no_backslash p = true ->
  bool_field m "raw" true raw -> bool_field m "output" false output -> bool_field m "unique" false u ->
  (is_ub (process_request other (JObj m) h) = true <->
   ((t = "tail" \/ t = "search") /\ (n < 0)%Z) \/ (t = "range" /\ (start < 0 /\ start <= stop)%Z)).
Proof.
  intros Ht Hn Ha Hb Hs Hp Hbs Hr Ho Hu.
  destruct (String.eqb_spec t "tail") as [->|N1]; [|destruct (String.eqb_spec t "search") as [->|N2]; [|destruct (String.eqb_spec t "range") as [->|N3]]].
  - destruct (Z.lt_ge_cases n 0) as [Hz|Hz].
    + split; [intros _; left; auto|]. intros _. unfold process_request. rewrite (value_string_field _ _ _ _ Ht). cbn [bind].
      change (String.eqb "tail" "tail") with true. cbv iota.
      rewrite (value_int_field _ _ _ _ Hn), (value_bool_field _ _ _ _ Hr), (value_bool_field _ _ _ _ Ho). cbn [bind]. now apply get_tail_negative.
    + erewrite request_tail by eauto. cbn. split; [discriminate|]. intros [[_ H]|[H _]]; [lia|discriminate].
  - destruct (Z.lt_ge_cases n 0) as [Hz|Hz].
    + split; [intros _; left; auto|]. intros _. unfold process_request. rewrite (value_string_field _ _ _ _ Ht). cbn [bind].
      change (String.eqb "search" "tail") with false. change (String.eqb "search" "search") with true. cbv iota.
      rewrite (value_string_field _ _ _ _ Hp), (value_bool_field _ _ _ _ Hr), (value_bool_field _ _ _ _ Ho), (value_int_field _ _ _ _ Hn), (value_bool_field _ _ _ _ Hu).
      cbn [bind]. now apply search_negative.
    + destruct (request_search other m p raw output n u h Ht Hp Hr Ho Hn Hu Hbs Hz) as (f & k & _ & _ & ->).
      cbn. split; [discriminate|]. intros [[_ H]|[H _]]; [lia|discriminate].
  - erewrite request_range by eauto. rewrite get_range_ub. split; [auto|]. intros [[[H|H] _]|[_ H]]; auto; discriminate.
  - erewrite request_other; eauto; [|cbn; intuition congruence]. cbn. split; [discriminate|]. intuition congruence.
Qed.
