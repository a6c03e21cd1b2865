(** The replies of the debugger. *)
From Verif Require Import Base BaseFacts Json JsonText JsonTextProofs Auth Message MessageProofs Dap DapSpec DapProofs DapQueue DapMain Debugger DebuggerSpec DebuggerProofs DebuggerState DebuggerRequests.

Lemma gbind_ret {A} (p : G A) d : gbind p gret d = p d.
Proof. unfold gbind. destruct (p d) as [d' [a|e|w|]]; reflexivity. Qed.
Lemma gbind_done {A B} (p : G A) (f : A -> G B) d d' b : gbind p f d = (d', Done b) -> exists d1 a, p d = (d1, Done a) /\ f a d1 = (d', Done b).
Proof. unfold gbind. destruct (p d) as [d1 [a|e|w|]]; try discriminate. eauto. Qed.
Lemma glift_done {A} (r : res A) d d' a : glift r d = (d', Done a) -> d' = d /\ r = Ok a.
Proof. unfold glift. destruct r; cbn; intros [= <- <-]; auto. Qed.
Lemma no_handler E b name : unregistered E name -> builtin E b name = None -> mfind name (handlers E b) = None.
Proof. intros U B. rewrite handlers_builtin; auto. Qed.
Lemma own_handler E b name k : unregistered E name -> builtin E b name = Some k -> mfind name (handlers E b) = Some k.
Proof. intros U B. rewrite handlers_builtin; auto. Qed.

(** ** Dispatch *)
Lemma process_plain E h m name d : is_request name m -> name <> "initialize" -> name <> "disconnect" ->
  process_request E h m d =
  match mfind name (handlers E false) with
  | Some k => k m
  | None => fun d => if d_started d then
      (go* _ := send_header E h in match mfind name (handlers E true) with Some k => k m | None => forward_message E m end) d
      else (d, Done (JObj []))
  end d.
Proof.
  intros C N1 N2. unfold process_request, gbind at 1, glift at 1. rewrite (proj2 (jget_ok _ _ _) C). cbn [io_of].
  cbn [json_eqb]. destruct (String.eqb_spec name "initialize"); [contradiction|]. destruct (String.eqb_spec name "disconnect"); [contradiction|].
  unfold gbind at 1, gret at 1. unfold gbind at 1, glift at 1. cbn [get_string io_of]. 
  match goal with |- gbind ?p ?f d = _ => change (gbind p gret d = p d) end. apply gbind_ret.
Qed.
Lemma process_debug_info E h m d : is_request "debugInfo" m -> unregistered E "debugInfo" -> process_request E h m d = debug_info_request E m d.
Proof. intros C U. rewrite (process_plain _ _ _ _ _ C) by discriminate. now rewrite (own_handler E false "debugInfo" (debug_info_request E) U). Qed.
Lemma process_builtin E h m name k d d' r : is_request name m -> unregistered E name -> builtin E true name = Some k -> d_started d = true ->
  process_request E h m d = (d', Done r) -> exists d1, send_header E h d = (d1, Done tt) /\ k m d1 = (d', Done r).
Proof.
  intros C U B S. assert (N : builtin E false name = None /\ name <> "initialize" /\ name <> "disconnect").
  { unfold builtin in *. destruct (String.eqb_spec name "debugInfo") as [->|]; [discriminate|]. split; auto. split; intros ->; discriminate. }
  destruct N as (N1 & N2 & N3). rewrite (process_plain _ _ _ _ _ C) by auto. rewrite (no_handler _ _ _ U N1), S, (own_handler _ _ _ _ U B).
  intros R. apply gbind_done in R as (d1 & [] & R1 & R2). eauto.
Qed.
Lemma forward_done E m d d' r : forward_message E m d = (d', Done r) -> exists pre text, d_log d' = (pre ++ [DRecv text])%list /\ parse text = Ok r.
Proof.
  unfold forward_message. intros R. apply gbind_done in R as (d1 & t & _ & R). apply gbind_done in R as (d2 & [] & _ & R).
  destruct (dn_reply E (d_log d2)) as [evs [text|]].
  - apply gbind_done in R as (d3 & [] & _ & R). apply gbind_done in R as (d4 & [] & [= <-] & R). apply glift_done in R as [-> R]. exists (d_log d3), text. auto.
  - apply gbind_done in R as (d3 & [] & _ & R). discriminate.
Qed.
Lemma process_forwarded E h m name (f : json -> json -> res json) d d' r :
  is_request name m -> unregistered E name -> builtin E true name = Some (fun m => go* reply := forward_message E m in glift (f m reply)) -> d_started d = true ->
  process_request E h m d = (d', Done r) -> exists pre text reply, d_log d' = (pre ++ [DRecv text])%list /\ parse text = Ok reply /\ f m reply = Ok r.
Proof.
  intros C U B S R. destruct (process_builtin _ _ _ _ _ _ _ _ C U B S R) as (d1 & _ & R2). apply gbind_done in R2 as (d2 & reply & R2 & R3).
  apply glift_done in R3 as [-> R3]. destruct (forward_done _ _ _ _ _ R2) as (pre & text & L & P). eauto 7.
Qed.

(** ** Windows *)
Lemma jwf_sorted m : jwf (JObj m) = true -> msorted m = true.
Proof. cbn. intros H. apply andb_true_iff in H as [H _]. exact H. Qed.
Lemma jwf_find k m v : jwf (JObj m) = true -> mfind k m = Some v -> jwf v = true.
Proof.
  cbn. intros H F. apply andb_true_iff in H as [_ H]. apply mfind_in in F. induction m as [|[k' v'] m IH]; [destruct F|].
  cbn in H. apply andb_true_iff in H as [H1 H2]. destruct F as [[= -> ->]|F]; auto.
Qed.
Lemma skipn_nth {A} (l : list A) i x : nth_error l i = Some x -> skipn i l = x :: skipn (S i) l.
Proof. revert l. induction i as [|i IH]; intros [|y l]; try discriminate; cbn; [now intros [= ->]|]. intros H. now rewrite (IH l H). Qed.
Lemma window_in n : forall i l, (0 <= i)%Z -> Z.to_nat i + n <= List.length l -> window n i (JArr l) = Ok (firstn n (skipn (Z.to_nat i) l)).
Proof.
  induction n as [|n IH]; intros i l Hi Hl; cbn [window]; [reflexivity|].
  unfold jat_index. destruct (Z.ltb_spec i 0); [lia|]. destruct (nth_error l (Z.to_nat i)) as [x|] eqn:X; [|apply nth_error_None in X; lia]. cbn [bind].
  rewrite IH by lia. rewrite (skipn_nth l _ x X). replace (Z.to_nat (i + 1)) with (S (Z.to_nat i)) by lia. reflexivity.
Qed.
Lemma window_out n : forall i l, n <> 0 -> (i < 0)%Z \/ List.length l < Z.to_nat i + n -> window n i (JArr l) = Exn (Std "out_of_range.401").
Proof.
  induction n as [|n IH]; intros i l Hn H; [easy|]. cbn [window]. unfold jat_index. destruct (Z.ltb_spec i 0); [reflexivity|].
  destruct (nth_error l (Z.to_nat i)) as [x|] eqn:X; [|reflexivity]. cbn [bind]. assert (Z.to_nat i < List.length l) by (apply nth_error_Some; congruence).
  rewrite IH; [reflexivity| |right]; lia.
Qed.
Lemma jget_mut_has k m v : mfind k m = Some v -> jget_mut k (JObj m) = Ok (v, JObj m).
Proof. cbn. intros ->. reflexivity. Qed.
Lemma set_same {A} k (v : A) m : msorted m = true -> mfind k m = Some v -> mset k v m = m.
Proof.
  intros S F. apply msorted_ext; auto; [now apply mset_sorted|]. intros k'. rewrite BaseFacts.mfind_mset. destruct (String.eqb_spec k' k) as [->|]; auto.
Qed.
Lemma asked_args m k a z : jfield "arguments" m = Some a -> asked k m z -> match jlookup k a with Some v => get_int v | None => Ok 0%Z end = Ok z.
Proof. intros A (a' & A' & H). rewrite A in A'. injection A' as <-. unfold jlookup. destruct H as [[-> ->]|(v & -> & H)]; auto. Qed.

Definition in_window (l : list json) (s c : Z) : Prop :=
  (s = 0 /\ c = 0)%Z \/ (c < 0)%Z \/ (0 <= s)%Z /\ (c = 0 \/ 0 < c /\ s + c <= Z.of_nat (List.length l))%Z.
(** The list the reply gets. *)
Definition windowed_value (l : list json) (s c : Z) : json :=
  if (s =? 0)%Z && (c =? 0)%Z then JArr l
  else let e := if (c =? 0)%Z then Z.of_nat (List.length l) else (s + c)%Z in
  if (s <? e)%Z then JArr (firstn (Z.to_nat (e - s)) (skipn (Z.to_nat s) l)) else JNull.
Lemma windowed_iff l s c v : windowed l s c v <-> in_window l s c /\ v = windowed_value l s c.
Proof.
  unfold windowed_value, in_window. split.
  - intros H. destruct H as [|a b E Na Nb|a b c0 E Nb|s Hs Hl|s c Hc].
    + split; auto.
    + subst l. rewrite app_length. destruct a as [|x a]; [easy|]. destruct b as [|y b]; [easy|]. split; [right; right; cbn; lia|].
      destruct (Z.eqb_spec (Z.of_nat (List.length (x :: a))) 0) as [H|_]; [cbn in H; lia|]. cbn [andb Z.eqb].
      destruct (Z.ltb_spec (Z.of_nat (List.length (x :: a))) (Z.of_nat (List.length (x :: a) + List.length (y :: b)))) as [_|H]; [|cbn in H; lia].
      f_equal. replace (Z.to_nat _) with (List.length (y :: b)) by lia. rewrite Nat2Z.id, skipn_app, skipn_all, Nat.sub_diag. cbn [app skipn]. now rewrite firstn_all.
    + subst l. rewrite !app_length. destruct b as [|y b]; [easy|]. split; [right; right; cbn; lia|].
      destruct (Z.eqb_spec (Z.of_nat (List.length (y :: b))) 0) as [H|_]; [cbn in H; lia|]. rewrite andb_false_r.
      destruct (Z.ltb_spec (Z.of_nat (List.length a)) (Z.of_nat (List.length a) + Z.of_nat (List.length (y :: b)))) as [_|H]; [|cbn in H; lia].
      f_equal. replace (Z.to_nat _) with (List.length (y :: b)) by lia. rewrite Nat2Z.id, skipn_app, skipn_all, Nat.sub_diag. cbn [app skipn].
      change (y :: b ++ c0)%list with ((y :: b) ++ c0)%list. now rewrite firstn_app, firstn_all, Nat.sub_diag, firstn_O, app_nil_r.
    + split; [right; right; lia|]. destruct (Z.eqb_spec s 0); [lia|]. cbn [andb Z.eqb]. destruct (Z.ltb_spec s (Z.of_nat (List.length l))); [lia|reflexivity].
    + split; [auto|]. destruct (Z.eqb_spec c 0); [lia|]. rewrite andb_false_r. destruct (Z.ltb_spec s (s + c)); [lia|reflexivity].
  - intros [H ->]. destruct (Z.eqb_spec c 0) as [->|Nc].
    + destruct (Z.eqb_spec s 0) as [->|Ns]; [constructor|]. cbn [andb]. destruct (Z.ltb_spec s (Z.of_nat (List.length l))); [|constructor; lia].
      rewrite firstn_all2 by (rewrite skipn_length; lia).
      pose proof (win_tail l (firstn (Z.to_nat s) l) (skipn (Z.to_nat s) l) ltac:(now rewrite firstn_skipn)) as W.
      rewrite firstn_length_le in W by lia. rewrite Z2Nat.id in W by lia. apply W; intros H1; apply (f_equal (@List.length json)) in H1; revert H1; rewrite ?firstn_length_le, ?skipn_length by lia; cbn; lia.
    + rewrite andb_false_r. destruct (Z.ltb_spec s (s + c)); [|apply win_negative; lia]. replace (s + c - s)%Z with c by lia.
      pose proof (win_part l (firstn (Z.to_nat s) l) (firstn (Z.to_nat c) (skipn (Z.to_nat s) l)) (skipn (Z.to_nat c) (skipn (Z.to_nat s) l)) ltac:(now rewrite !firstn_skipn)) as W.
      rewrite !firstn_length_le in W by (rewrite ?skipn_length; lia). rewrite !Z2Nat.id in W by lia. apply W.
      intros H1; apply (f_equal (@List.length json)) in H1; revert H1. rewrite firstn_length_le by (rewrite skipn_length; lia). cbn. lia.
Qed.
Lemma page_value m reply l s c : jwf reply = true -> body_has "variables" (JArr l) reply -> asked "start" m s -> asked "count" m c -> in_int (s + c) = true ->
  (in_window l s c -> exists r, page m reply = Ok r /\ with_body "variables" (windowed_value l s c) reply r) /\
  (~ in_window l s c -> page m reply = Exn (Std "out_of_range.401")).
Proof.
  intros W (b & B & V) As Ac Ov. destruct As as (a & A & As). pose proof (asked_args m "start" a s A) as S1. pose proof (asked_args m "count" a c A Ac) as C1.
  assert (S2 : asked "start" m s) by (exists a; auto). specialize (S1 S2). clear As Ac S2.
  destruct reply as [| | | | | |rm]; cbn in B; try discriminate. assert (Wb : jwf (JObj b) = true) by (eapply jwf_find; eauto).
  pose proof (jwf_sorted _ W) as Sr. pose proof (jwf_sorted _ Wb) as Sb.
  assert (Same : with_body "variables" (JArr l) (JObj rm) (JObj rm)).
  { exists rm, b, rm, b. repeat split; auto. }
  unfold page. rewrite (proj2 (jget_ok _ _ _) A). cbn [bind]. rewrite S1, C1. cbn [bind]. unfold windowed_value.
  destruct ((s =? 0)%Z && (c =? 0)%Z) eqn:Z0.
  { apply andb_true_iff in Z0 as [Z1 Z2]. apply Z.eqb_eq in Z1, Z2. split; [eauto|]. intros N. elim N. left. auto. }
  replace (if (c =? 0)%Z then Ok 0%Z else if in_int (s + c) then Ok (s + c)%Z else UB "int overflow") with (Ok (if (c =? 0)%Z then 0%Z else (s + c)%Z) : res Z) by (rewrite Ov; now destruct (c =? 0)%Z).
  cbn [bind]. unfold in_body. rewrite (jget_mut_has "body" rm _ B). cbn [bind]. rewrite (jget_mut_has "variables" b _ V). cbn [bind]. cbn zeta.
  set (e := if (c =? 0)%Z then Z.of_nat (List.length l) else (s + c)%Z).
  replace (if (c =? 0)%Z then Z.of_nat (jsize (JArr l)) else if (c =? 0)%Z then 0%Z else (s + c)%Z) with e by (unfold e; now destruct (c =? 0)%Z).
  cbn [bind jset]. rewrite (set_same "variables" _ b Sb V), (set_same "body" _ rm Sr B), (jget_mut_has "body" rm _ B). cbn [bind jerase].
  assert (Put : forall v, exists r, (let* body := jset "variables" v (JObj (mdel "variables" b)) in jset "body" body (JObj rm)) = Ok r /\ with_body "variables" v (JObj rm) r).
  { intros v. cbn [jset bind]. eexists. split; [reflexivity|]. exists rm, b, (mset "body" (JObj (mset "variables" v (mdel "variables" b))) rm), (mset "variables" v (mdel "variables" b)).
    repeat split; auto; try apply mfind_mset_same.
    - intros k Hk. now apply mfind_mset_other.
    - intros k Hk. rewrite BaseFacts.mfind_mset, mfind_mdel by auto. destruct (String.eqb_spec k "variables"); congruence. }
  split.
  - intros Hw. destruct (Z.ltb_spec s e).
    + assert (Hs : (0 <= s)%Z /\ (e <= Z.of_nat (List.length l))%Z) by (unfold in_window in Hw; unfold e in *; destruct (Z.eqb_spec c 0); lia).
      rewrite window_in by lia. cbn [bind]. apply Put.
    + replace (Z.to_nat (e - s)) with 0 by lia. cbn [window bind]. apply Put.
  - intros Hw. assert (Hs : (s < e)%Z /\ ((s < 0)%Z \/ (Z.of_nat (List.length l) < e)%Z)) by (unfold in_window in Hw; unfold e in *; destruct (Z.eqb_spec c 0); lia).
    rewrite window_out; [reflexivity|lia|]. destruct Hs as [H1 [H2|H2]]; [now left|]. destruct (Z.ltb_spec s 0); [now left|right; lia].
Qed.

(** ** Stack frames *)
Lemma strip_removed l l' : Forall (fun f => jwf f = true) l -> first_removed l l' -> strip_frames l = Ok l'.
Proof.
  intros W H. induction H as [|f l (s & S & P)|f p l l' (s & S & P) N R IH].
  - reflexivity.
  - inversion W; subst. destruct f as [| | | | | |fm]; cbn in S; try discriminate. destruct s as [| | | | | |sm]; cbn in P; try discriminate.
    cbn [strip_frames]. rewrite (jget_mut_has _ _ _ S). cbn [bind]. rewrite (jget_mut_has _ _ _ P). cbn [bind jset json_eqb]. reflexivity.
  - inversion W; subst. destruct f as [| | | | | |fm]; cbn in S; try discriminate. destruct s as [| | | | | |sm]; cbn in P; try discriminate.
    cbn [strip_frames]. rewrite (jget_mut_has _ _ _ S). cbn [bind]. rewrite (jget_mut_has _ _ _ P). cbn [bind jset].
    rewrite (set_same "source" _ fm) by (auto; now apply jwf_sorted).
    destruct (json_eqb p (JStr "<string>")) eqn:E; [apply json_eqb_str in E; contradiction|]. now rewrite IH.
Qed.
Lemma removed_exists l : Forall (fun f => exists p, has_path f p) l -> exists l', first_removed l l'.
Proof.
  induction 1 as [|f l (p & P) F (l' & IH)]; [exists []; constructor|]. destruct (json_eqb p (JStr "<string>")) eqn:E.
  - apply json_eqb_str in E. subst p. exists l. now constructor.
  - exists (f :: l'). eapply removed_later; eauto. intros ->. rewrite (proj2 (json_eqb_str _ _) eq_refl) in E. discriminate.
Qed.
Lemma stack_frames_value reply l l' : jwf reply = true -> body_has "stackFrames" (JArr l) reply -> first_removed l l' ->
  exists r, stack_frames reply = Ok r /\ with_body "stackFrames" (JArr l') reply r.
Proof.
  intros W (b & B & V) F. destruct reply as [| | | | | |rm]; cbn in B; try discriminate. assert (Wb : jwf (JObj b) = true) by (eapply jwf_find; eauto).
  pose proof (jwf_find _ _ _ Wb V) as Wl. unfold stack_frames, in_body. rewrite (jget_mut_has "body" rm _ B). cbn [bind]. rewrite (jget_mut_has "stackFrames" b _ V). cbn [bind].
  rewrite (strip_removed l l'); auto.
  - cbn [bind jset]. eexists. split; [reflexivity|]. exists rm, b, (mset "body" (JObj (mset "stackFrames" (JArr l') b)) rm), (mset "stackFrames" (JArr l') b).
    repeat split; auto; try apply mfind_mset_same; intros k Hk; now apply mfind_mset_other.
  - cbn in Wl. apply Forall_forall. apply forallb_forall. exact Wl.
Qed.

(** ** debugInfo *)
Lemma response_ok m success rest r : response m success rest = Ok r ->
  exists seq cmd, jfield "seq" m = Some seq /\ jfield "command" m = Some cmd /\
    r = jobj ([("type", JStr "response"); ("request_seq", seq); ("success", JBool success); ("command", cmd)] ++ rest).
Proof.
  unfold response. destruct (jget "seq" m) as [seq| |] eqn:S; try discriminate. cbn [bind]. destruct (jget "command" m) as [cmd| |] eqn:C; try discriminate. cbn [bind].
  intros [= <-]. apply jget_ok in S, C. eauto.
Qed.
Lemma response_value m success rest seq cmd : jfield "seq" m = Some seq -> jfield "command" m = Some cmd ->
  response m success rest = Ok (jobj ([("type", JStr "response"); ("request_seq", seq); ("success", JBool success); ("command", cmd)] ++ rest)).
Proof. intros S C. unfold response. rewrite (proj2 (jget_ok _ _ _) S). cbn [bind]. rewrite (proj2 (jget_ok _ _ _) C). reflexivity. Qed.
Lemma answers_body m success seq cmd body : jfield "seq" m = Some seq -> jfield "command" m = Some cmd ->
  let r := jobj ([("type", JStr "response"); ("request_seq", seq); ("success", JBool success); ("command", cmd)] ++ [("body", body)]) in
  answers m success r /\ jfield "body" r = Some body.
Proof. intros S C. cbn -[jfield]. split; [|reflexivity]. unfold answers. rewrite S, C. repeat split. Qed.
Lemma debug_info_done E m d d' r : debug_info_request E m d = (d', Done r) ->
  d' = d /\ answers m true r /\ exists body, jfield "body" r = Some body /\ jfield "isStarted" body = Some (JBool (d_started d)) /\
   jfield "breakpoints" body = Some (JArr (if d_started d then map (fun p => jobj [("source", JStr (fst p)); ("breakpoints", JArr (snd p))]) (d_bps d) else [])) /\
   jfield "stoppedThreads" body = Some (JArr (map JInt (d_threads d))).
Proof.
  unfold debug_info_request. intros R. apply glift_done in R as [-> R]. split; auto. apply response_ok in R as (seq & cmd & S & C & ->).
  match goal with |- context [("body", ?b)] => destruct (answers_body m true seq cmd b S C) as [A B]; split; [exact A|exists b; split; [exact B|]] end.
  repeat split; reflexivity.
Qed.
Lemma debug_info_answers E m d seq : jfield "seq" m = Some seq -> is_request "debugInfo" m -> exists r, debug_info_request E m d = (d, Done r).
Proof. intros S C. unfold debug_info_request, glift. rewrite (response_value _ _ _ _ _ S C). cbn [io_of]. eauto. Qed.
Fixpoint strings_sorted (l : list string) : Prop := match l with [] => True | s :: r => Forall (fun t => str_ltb s t = true) r /\ strings_sorted r end.
Lemma msorted_keys {A} (m : list (string * A)) : msorted m = true -> strings_sorted (map fst m).
Proof.
  induction m as [|[k v] m IH]; cbn [map strings_sorted]; auto. intros H. apply msorted_cons in H as [H1 H2]. split; auto.
  unfold mabove in H1. apply Forall_map. exact H1.
Qed.

(** ** dumpCell and source *)
Definition code_of (m : json) (code : string) : Prop := exists a, jfield "arguments" m = Some a /\ jfield "code" a = Some (JStr code).
Lemma get_code_value m code : code_of m code -> get_code m = Ok code.
Proof. intros (a & A & C). unfold get_code. rewrite (proj2 (jget_ok _ _ _) A). cbn [bind]. rewrite (proj2 (jget_ok _ _ _) C). reflexivity. Qed.
(** The arguments have something else where the code should be. *)
Definition code_missing (m : json) : Prop := exists a, jfield "arguments" m = Some a /\ ((forall f, a <> JObj f) \/ exists v, jfield "code" a = Some v /\ forall t, v <> JStr t).
Definition code_taken (m : json) (code : string) : Prop := code_of m code \/ (code_missing m /\ code = "").
Lemma code_taken_value m code : code_taken m code -> or_empty (get_code m) = Ok code.
Proof.
  intros [C|[(a & A & H) ->]]; [now rewrite (get_code_value _ _ C)|]. unfold get_code. rewrite (proj2 (jget_ok _ _ _) A). cbn [bind].
  destruct H as [H|(v & V & H)]; [destruct a; try reflexivity; now destruct (H m0)|]. rewrite (proj2 (jget_ok _ _ _) V). cbn [bind]. destruct v; try reflexivity. now destruct (H s).
Qed.
Lemma dump_cell_done E m d d' r code name : code_taken m code -> dn_tmp E code = Ok name -> dump_cell_request E m d = (d', Done r) ->
  answers m true r /\ (exists body, jfield "body" r = Some body /\ jfield "sourcePath" body = Some (JStr name)) /\
  d' = d_set_fs (match open_in (d_fs d) name with Some _ => d_fs d | None => write_out (d_fs d) name code end) d.
Proof.
  intros C N. unfold dump_cell_request. rewrite (code_taken_value _ _ C). intros R.
  apply gbind_done in R as (d1 & c & R1 & R). apply glift_done in R1 as [-> [= <-]].
  apply gbind_done in R as (d1 & n & R1 & R). apply glift_done in R1 as [-> R1]. rewrite N in R1. injection R1 as <-.
  apply gbind_done in R as (d1 & [] & [= <-] & R). apply glift_done in R as [-> R]. apply response_ok in R as (seq & cmd & S & Cm & ->).
  destruct (answers_body m true seq cmd (jobj [("sourcePath", JStr name)]) S Cm) as [A B]. split; [exact A|]. split; [eexists; split; [exact B|reflexivity]|].
  destruct (open_in (d_fs d) name); auto. now destruct d.
Qed.
Lemma source_done m d d' r path : get_source_path m = Ok path -> source_request m d = (d', Done r) ->
  d' = d /\ (forall c, open_in (d_fs d) path = Some c -> answers m true r /\ exists body, jfield "body" r = Some body /\ jfield "content" body = Some (JStr c)) /\
  (open_in (d_fs d) path = None -> answers m false r /\ jfield "message" r = Some (JStr "source unavailable")).
Proof.
  intros P. unfold source_request. rewrite P. cbn [or_empty]. intros R. apply gbind_done in R as (d1 & p & R1 & R). apply glift_done in R1 as [-> [= <-]].
  destruct (open_in (d_fs d) path) as [c|]; apply glift_done in R as [-> R]; (split; [reflexivity|]); apply response_ok in R as (seq & cmd & S & Cm & ->); split; try discriminate.
  - intros c' [= <-]. destruct (answers_body m true seq cmd (jobj [("content", JStr c)]) S Cm) as [A B]. split; [exact A|]. eexists. split; [exact B|reflexivity].
  - intros _. unfold answers. rewrite S, Cm. repeat split.
Qed.
Lemma header_fs E h d d' : send_header E h d = (d', Done tt) -> d_fs d' = d_fs d /\ d_started d' = d_started d.
Proof.
  unfold send_header. intros R. apply gbind_done in R as (d1 & t & R1 & R). apply glift_done in R1 as [-> _]. apply gbind_done in R as (d1 & [] & [= <-] & R).
  destruct (dn_ack E (d_log (dlog (DHeader t) d))) as [evs ok]. apply gbind_done in R as (d1 & [] & R1 & R). destruct ok; [|discriminate]. injection R as <-.
  assert (H : forall l d d', deliver E l d = (d', Done tt) -> d_fs d' = d_fs d /\ d_started d' = d_started d).
  { induction l as [|j l IH]; cbn [deliver]; intros d0 d0' R; [injection R as <-; auto|].
    destruct (handle_debug_event E j (dlog (DEvent j) d0)) as [d2|e|w] eqn:X; [|exact (IH _ _ R)|discriminate].
    apply handle_event_shape in X as [th ->]. exact (IH _ _ R). }
  exact (H _ _ _ R1).
Qed.
(** A file that can be read stays as it is. *)
Lemma cpath_c name : forall p, c_string name p -> cpath name = p.
Proof.
  induction name as [|x name IH]; intros p [N H].
  - destruct H as [<-|[r H]]; auto. now destruct p.
  - cbn [cpath]. destruct (code x =? 0)%N eqn:X.
    + apply N.eqb_eq in X. assert (x = "000"%char) by (rewrite <- (ascii_N_embedding x); unfold code in X; now rewrite X). subst x.
      destruct p as [|y p]; auto. exfalso. destruct H as [H|[r H]]; injection H as <- H; now apply (N "" p).
    + destruct p as [|y p]; [destruct H as [H|[r H]]; [discriminate|injection H as -> H; discriminate]|].
      f_equal; [destruct H as [H|[r H]]; now injection H|]. apply IH. split.
      * intros a b E. apply (N (String y a) b). now rewrite E.
      * destruct H as [H|[r H]]; injection H as <- H; eauto.
Qed.
Lemma cpath_short a b : String.length (cpath (a +++ String "000" b)) <= String.length a.
Proof. induction a as [|x a IH]; cbn; auto. destruct (code x =? 0)%N; cbn; lia. Qed.
Lemma length_plus a b : String.length (a +++ b) = String.length a + String.length b.
Proof. induction a as [|x a IH]; cbn; auto. Qed.
Lemma no_nul p : cpath p = p -> c_string p p.
Proof. intros H. split; auto. intros a b ->. pose proof (cpath_short a b) as L. rewrite H, length_plus in L. cbn in L. lia. Qed.
Lemma reads_open fs name p c : c_string name p -> reads fs p c -> open_in fs name = Some c.
Proof. intros C H. unfold open_in. rewrite (cpath_c _ _ C). destruct H as [[-> ->]|[w ->]]; reflexivity. Qed.
Lemma unreadable_open fs name p : c_string name p -> unreadable fs p -> open_in fs name = None.
Proof. intros C H. unfold open_in. rewrite (cpath_c _ _ C). destruct H as [->|(w & c & ->)]; reflexivity. Qed.
Definition readable (p c : string) (d : dbg) : Prop := open_in (d_fs d) p = Some c.
Lemma write_readable fs p c name code : open_in fs p = Some c -> open_in fs name = None -> open_in (write_out fs name code) p = Some c.
Proof.
  unfold open_in, write_out. intros H N. assert (D : cpath p <> cpath name) by (intros X; rewrite X in H; congruence). apply String.eqb_neq in D.
  destruct (f_at fs (cpath name)) as [| |r w b]; [destruct (f_create fs (cpath name)); cbn; rewrite ?D; auto|auto|destruct w; cbn; rewrite ?D; auto].
Qed.
Lemma readable_history E d l d' p c : sendable l -> (forall fs, ~ In (HFiles fs) l) -> readable p c d -> history E d l d' -> readable p c d'.
Proof.
  intros Hs Hf. apply (pres_history E (readable p c)); auto.
  - intros d0 j d1 H [X|(e & _ & ->)]; [|exact H]. apply handle_event_shape in X as [th ->]. exact H.
  - intros d0 name code H N. unfold readable. cbn. now apply write_readable.
  - intros d0 fs Hin. now elim (Hf fs).
Qed.
