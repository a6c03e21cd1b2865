(** Properties C27-C31: the in-memory history manager. *)
From Verif Require Import Base BaseFacts Json JsonText History HistoryProofs.

Definition ent (l i o : string) : entry := {| h_session := "0"; h_line := l; h_input := i; h_output := o |}.
Definition demo_history : history := [ent "1" "x = 1" ""; ent "2" "print(x)" "1"; ent "3" "x = 1" ""; ent "4" "a*b" ""].

(** C27 *)
Theorem C27_tail : forall n raw output h, (0 <= n)%Z ->
  get_tail n raw output h = Ok (ok_reply (List.map (columns output) (lastn (Z.to_nat n) h))).
Proof. exact get_tail_spec. Qed.
Print Assumptions C27_tail.
Theorem C27_lastn : forall {A} n (l : list A),
  exists pre, l = pre ++ lastn n l /\ List.length (lastn n l) = Nat.min n (List.length l).
Proof. exact @lastn_spec. Qed.
Print Assumptions C27_lastn.
(** C27 for a negative count: the list is left. *)
Theorem C27_negative_refuted : forall n raw output h, (n < 0)%Z -> is_ub (get_tail n raw output h) = true.
Proof. exact get_tail_negative. Qed.
Print Assumptions C27_negative_refuted.
Example C27_ex : get_tail 2 true true demo_history = Ok (ok_reply [["0"; "3"; "x = 1"; ""]; ["0"; "4"; "a*b"; ""]]).
Proof. vm_compute. reflexivity. Qed.

(** C28 *)
Theorem C28_range : forall session start stop raw output h,
  (0 <= start <= stop)%Z -> (start <= Z.of_nat (List.length h))%Z ->
  get_range session start stop raw output h =
    Ok (ok_reply (List.map (columns output) (firstn (Z.to_nat (stop - start)) (skipn (Z.to_nat start) h)))).
Proof. exact get_range_ok. Qed.
Print Assumptions C28_range.
Theorem C28_range_error : forall session start stop raw output h,
  (start > stop \/ start > Z.of_nat (List.length h))%Z ->
  exists r, get_range session start stop raw output h = Ok r /\ jfield "status" r = Some (JStr "error") /\ jfield "history" r = None.
Proof. exact get_range_error. Qed.
Print Assumptions C28_range_error.
Theorem C28_undefined_iff : forall session start stop raw output h,
  is_ub (get_range session start stop raw output h) = true <-> (start < 0 /\ start <= stop)%Z.
Proof. exact get_range_ub. Qed.
Print Assumptions C28_undefined_iff.
Example C28_ex : get_range 0 1 3 true false demo_history = Ok (ok_reply [["0"; "2"; "print(x)"]; ["0"; "3"; "x = 1"]]).
Proof. vm_compute. reflexivity. Qed.

(** [t]: the text before the first NUL of [s] (c_str). *)
Definition c_text (s t : string) : Prop := (forall a b, t <> a +++ String "000" b) /\ (s = t \/ exists r, s = t +++ String "000" r).
Definition found_by (p : string) (e : entry) : Prop := exists t, c_text (h_input e) t /\ glob_in p t.
Lemma c_text_cstr s t : c_text s t <-> cstr s = t.
Proof.
  split.
  - intros (N & H). revert s H N. induction t as [|c t IH]; intros s H N.
    + destruct H as [->|[r ->]]; reflexivity.
    + assert (Hc : (code c =? 0)%N = false).
      { destruct (N.eqb_spec (code c) 0) as [Z|]; [|reflexivity]. exfalso. apply (N "" t). cbn. f_equal. rewrite <- (ascii_N_embedding c). fold (code c). now rewrite Z. }
      assert (N' : forall a b, t <> a +++ String "000" b) by (intros a b E; apply (N (String c a) b); cbn; now rewrite E).
      destruct H as [->|[r ->]]; cbn [append cstr]; rewrite Hc; f_equal; apply IH; eauto.
  - intros <-. induction s as [|c s [N H]]; cbn [cstr]; [split; [intros []; discriminate|now left]|].
    destruct (N.eqb_spec (code c) 0) as [Z|Z].
    + split; [intros []; discriminate|]. right. exists s. cbn. f_equal. rewrite <- (ascii_N_embedding c). fold (code c). now rewrite Z.
    + split.
      * intros [|a0 a] b E; cbn in E; injection E as -> E; [now apply Z|]. now apply (N a b).
      * destruct H as [H|[r H]]; [left; now rewrite <- H|right; exists r; cbn; now rewrite <- H].
Qed.
Lemma matching_found p e : matching p e <-> found_by p e.
Proof.
  unfold matching, found_by. split; [intros H; eexists; split; [now apply c_text_cstr|exact H]|]. intros (t & H & G). apply c_text_cstr in H. now rewrite H.
Qed.
Lemma sel_found p h r : sel (matching p) h r -> sel (found_by p) h r.
Proof. induction 1; constructor; auto; now rewrite <- matching_found. Qed.
(** C29, C30. [sel (found_by p) h found]: [found] are, in order, the entries whose input (as a C
    string) contains a substring matched by the glob; [collapses]: one element per run of equal
    rows; the reply has the last [n] of them. *)
Theorem C29_search : forall other p raw output n (u : bool) h, no_backslash p = true -> (0 <= n)%Z ->
  exists found kept, sel (found_by p) h found /\
    (if u then collapses (List.map (columns output) found) kept else kept = List.map (columns output) found) /\
    search other p raw output n u h = Ok (ok_reply (lastn (Z.to_nat n) kept)).
Proof. intros other p raw output n u h N P. destruct (search_spec other p raw output n u h N P) as (f & k & S & R). exists f, k. split; [now apply sel_found|exact R]. Qed.
Print Assumptions C29_search.
(** The specification determines the answer. *)
Theorem C29_spec_functional : forall p (h : history) r1 r2, sel (found_by p) h r1 -> sel (found_by p) h r2 -> r1 = r2.
Proof. exact (fun p => sel_fun (found_by p)). Qed.
Print Assumptions C29_spec_functional.
(** A pattern ending in a lone backslash makes the search throw std::regex_error. *)
Theorem C29_trailing_backslash : forall other p raw output n u h, no_backslash p = true ->
  search other (p +++ "\") raw output n u h = Exn regex_error.
Proof. exact search_trailing_bs. Qed.
Print Assumptions C29_trailing_backslash.
Example C29_ex : forall other, search other "x*=" true false 10 false demo_history = Ok (ok_reply [["0"; "1"; "x = 1"]; ["0"; "3"; "x = 1"]]) /\
  search other "(x)" true false 10 false demo_history = Ok (ok_reply [["0"; "2"; "print(x)"]]) /\ no_backslash "x*=" = true.
Proof. intros. vm_compute. auto. Qed.

Theorem C30_spec_functional : forall (l r1 r2 : list (list string)), collapses l r1 -> collapses l r2 -> r1 = r2.
Proof. exact (fun l r1 r2 => collapses_fun l r1 r2 (list_eq_dec string_dec)). Qed.
Print Assumptions C30_spec_functional.
Theorem C30_negative_refuted : forall other p raw output n u h, no_backslash p = true -> (n < 0)%Z ->
  is_ub (search other p raw output n u h) = true.
Proof. exact search_negative. Qed.
Print Assumptions C30_negative_refuted.
(** C30: [unique] does not make inputs unique: duplicates that are not adjacent survive, and adjacent
    executions of the same code survive because their line numbers differ. *)
Theorem C30_unique_refuted : exists h1 h2, forall other,
  search other "x" true false 10 true h1 = Ok (ok_reply [["0"; "1"; "x"]; ["0"; "1"; "xy"]; ["0"; "1"; "x"]]) /\
  search other "x" true false 10 true h2 = Ok (ok_reply [["0"; "1"; "x"]; ["0"; "2"; "x"]]).
Proof.
  exists [ent "1" "x" ""; ent "1" "xy" ""; ent "1" "x" ""], [ent "1" "x" ""; ent "2" "x" ""].
  intros. vm_compute. auto.
Qed.
Print Assumptions C30_unique_refuted.
Example C30_ex : forall other, search other "*" true false 2 true [ent "1" "a" ""; ent "1" "b" ""; ent "1" "b" ""; ent "1" "b" ""] = Ok (ok_reply [["0"; "1"; "a"]; ["0"; "1"; "b"]]).
Proof. intros. vm_compute. reflexivity. Qed.

(** C31 *)
Theorem C31_tail : forall other m n raw output h,
  str_field m "hist_access_type" "tail" "tail" -> int_field m "n" 10 n -> bool_field m "raw" true raw -> bool_field m "output" false output ->
  (0 <= n)%Z -> process_request other (JObj m) h = Ok (ok_reply (List.map (columns output) (lastn (Z.to_nat n) h))).
Proof. exact request_tail. Qed.
Print Assumptions C31_tail.
Theorem C31_range : forall other m session start stop raw output h,
  str_field m "hist_access_type" "tail" "range" -> int_field m "session" 0 session -> int_field m "start" 1 start -> int_field m "stop" 10 stop ->
  bool_field m "raw" true raw -> bool_field m "output" false output ->
  (0 <= start <= stop)%Z -> (start <= Z.of_nat (List.length h))%Z ->
  process_request other (JObj m) h =
    Ok (ok_reply (List.map (columns output) (firstn (Z.to_nat (stop - start)) (skipn (Z.to_nat start) h)))).
Proof. exact request_range_ok. Qed.
Print Assumptions C31_range.
Theorem C31_search : forall other m p raw output n (u : bool) h,
  str_field m "hist_access_type" "tail" "search" -> str_field m "pattern" "*" p -> bool_field m "raw" true raw -> bool_field m "output" false output ->
  int_field m "n" 10 n -> bool_field m "unique" false u -> no_backslash p = true -> (0 <= n)%Z ->
  exists found kept, sel (found_by p) h found /\
    (if u then collapses (List.map (columns output) found) kept else kept = List.map (columns output) found) /\
    process_request other (JObj m) h = Ok (ok_reply (lastn (Z.to_nat n) kept)).
Proof. intros other m p raw output n u h H1 H2 H3 H4 H5 H6 H7 H8. destruct (request_search other m p raw output n u h H1 H2 H3 H4 H5 H6 H7 H8) as (f & k & S & R). exists f, k. split; [now apply sel_found|exact R]. Qed.
Print Assumptions C31_search.
Theorem C31_other_type : forall other m t h, str_field m "hist_access_type" "tail" t -> ~ In t ["tail"; "search"; "range"] ->
  process_request other (JObj m) h = Ok JNull.
Proof. exact request_other. Qed.
Print Assumptions C31_other_type.
Theorem C31_wrong_type : forall other m h,
  wrong_string m "hist_access_type" \/
  (str_field m "hist_access_type" "tail" "tail" /\ wrong_int m "n") \/
  (str_field m "hist_access_type" "tail" "search" /\ wrong_string m "pattern") \/
  (str_field m "hist_access_type" "tail" "range" /\ wrong_int m "session") ->
  exists e, process_request other (JObj m) h = Exn e /\ is_std e = true.
Proof. exact request_wrong. Qed.
Print Assumptions C31_wrong_type.
Theorem C31_not_object : forall other j h, (forall m, j <> JObj m) -> exists e, process_request other j h = Exn e /\ is_std e = true.
Proof. exact request_not_object. Qed.
Print Assumptions C31_not_object.
Theorem C31_exceptions_std : forall other j h e, lib_std other -> process_request other j h = Exn e -> is_std e = true.
Proof. exact request_std. Qed.
Print Assumptions C31_exceptions_std.
(** C31: the requests with well-typed fields whose handling is undefined. *)
Theorem C31_undefined_iff : forall other m t n start stop session p raw output u h,
  str_field m "hist_access_type" "tail" t -> int_field m "n" 10 n -> int_field m "start" 1 start -> int_field m "stop" 10 stop ->
  int_field m "session" 0 session -> str_field m "pattern" "*" p -> no_backslash p = true ->
  bool_field m "raw" true raw -> bool_field m "output" false output -> bool_field m "unique" false u ->
  (is_ub (process_request other (JObj m) h) = true <->
   ((t = "tail" \/ t = "search") /\ (n < 0)%Z) \/ (t = "range" /\ (start < 0 /\ start <= stop)%Z)).
Proof. exact request_undefined. Qed.
Print Assumptions C31_undefined_iff.
Example C31_ex : forall other, exists m, str_field m "hist_access_type" "tail" "search" /\ int_field m "n" 10 1 /\ bool_field m "unique" false false /\
  str_field m "pattern" "*" "a?b" /\ process_request other (JObj m) demo_history = Ok (ok_reply [["0"; "4"; "a*b"]]).
Proof.
  intros. exists [("hist_access_type", JStr "search"); ("n", JInt 1); ("pattern", JStr "a?b")].
  repeat split; try (right; reflexivity); try (left; split; reflexivity). right. split; [reflexivity|]. unfold int_min, int_max. lia.
Qed.
