(** Objects shared by the threads and protected by a mutex: the HMAC context (C86), the loggers (C87). *)
From Verif Require Import Base BaseFacts Json JsonText JsonTextProofs Hex Auth WireLemmas Message Logger Pretty PrettyProofs Monitor MonitorProofs.

(** ** C86 *)
(** Whatever the threads do at the same time, every call returns what it returns alone: the signature of
    its own message, and the verdict on its own message. *)
Theorem C86_results : forall C scheme key s0 ls s i c r, mrun _ _ _ (auth_body C scheme key) (m_init _ _ _ s0) ls s -> List.In (NBack i c r) ls ->
  match c with
  | Sign h p m t => r = inl (Signature (Ok (sign C (HmacAuth scheme key) h p m t)))
  | Verify sig h p m t => r = inl (Verdict (verify C (HmacAuth scheme key) sig h p m t))
  end.
Proof. exact calls_right. Qed.
Print Assumptions C86_results.
(** A signature made by one thread is accepted by any other one. *)
Theorem C86_accepted : forall C scheme key s0 ls s i j h p m t sig r, mrun _ _ _ (auth_body C scheme key) (m_init _ _ _ s0) ls s ->
  List.In (NBack i (Sign h p m t) (inl (Signature (Ok sig)))) ls -> List.In (NBack j (Verify sig h p m t) r) ls -> r = inl (Verdict (Ok true)).
Proof.
  intros C scheme key s0 ls s i j h p m t sig r H H1 H2. apply (calls_right _ _ _ _ _ _ _ _ _ H) in H1. apply (calls_right _ _ _ _ _ _ _ _ _ H) in H2.
  cbn [right] in *. injection H1 as H1. rewrite H2. subst sig. cbn [sign verify]. rewrite Nat.ltb_irrefl. repeat f_equal.
  apply String.eqb_eq. set (x := hex_string _). rewrite <- (sapp_nil_r x) at 2. now rewrite stake_app.
Qed.
Print Assumptions C86_accepted.
(** At most one thread is between the lock and the unlock. *)
Theorem C86_exclusive : forall C scheme key s0 ls s i j, mrun _ _ _ (auth_body C scheme key) (m_init _ _ _ s0) ls s ->
  inside s i -> inside s j -> i = j.
Proof. intros C scheme key s0 ls s i j H. exact (run_exclusive _ _ _ _ _ _ H). Qed.
Print Assumptions C86_exclusive.
(** No deadlock: every call can come to its end, without further calls. *)
Theorem C86_no_deadlock : forall C scheme key s0 ls s i, mrun _ _ _ (auth_body C scheme key) (m_init _ _ _ s0) ls s -> n_at s i <> Out ->
  exists ls' s' c r, mrun _ _ _ (auth_body C scheme key) s ls' s' /\ Forall no_call ls' /\ List.In (NBack i c r) ls' /\ n_at s' i = Out.
Proof. intros C scheme key s0 ls s i H. exact (run_finish _ _ _ _ _ H). Qed.
Print Assumptions C86_no_deadlock.
(** Two threads that sign and verify at the same time; the context is not in use at first. *)
Definition two_calls : list (nat * option acall) :=
  (1, Some (Sign "h" "p" "m" "t")) :: (2, Some (Sign "H" "P" "M" "T")) :: (1, None) :: (2, None) ::
  List.concat (repeat [(1, None); (2, None)] 8) ++ (3, Some (Verify (sign toy toy_auth "h" "p" "m" "t") "h" "p" "m" "t")) ::
  List.concat (repeat [(2, None); (3, None)] 8) ++ repeat (3, None) 10.
Definition two_run := mexec (auth_body toy "hmac-sha256" "secret") two_calls (m_init _ _ _ Fresh).
Example C86_ex : mrun _ _ _ (auth_body toy "hmac-sha256" "secret") (m_init _ _ _ Fresh) (fst two_run) (snd two_run) /\
  backs (fst two_run) = [(Sign "h" "p" "m" "t", inl (Signature (Ok (sign toy toy_auth "h" "p" "m" "t"))));
                         (Sign "H" "P" "M" "T", inl (Signature (Ok (sign toy toy_auth "H" "P" "M" "T"))));
                         (Verify (sign toy toy_auth "h" "p" "m" "t") "h" "p" "m" "t", inl (Verdict (Ok true)))] /\
  sign toy toy_auth "h" "p" "m" "t" <> sign toy toy_auth "H" "P" "M" "T".
Proof. split; [apply mexec_run|]. split; vm_compute; [reflexivity|discriminate]. Qed.
(** One thread in the body, another one waiting. *)
Definition part_run := mexec (auth_body toy "hmac-sha256" "secret") (firstn 8 two_calls) (m_init _ _ _ Fresh).
Example C86_within_ex : mrun _ _ _ (auth_body toy "hmac-sha256" "secret") (m_init _ _ _ Fresh) (fst part_run) (snd part_run) /\
  inside (snd part_run) 1 /\ n_at (snd part_run) 2 = Wait (Sign "H" "P" "M" "T") /\ n_lock (snd part_run) = Some 1.
Proof. split; [apply mexec_run|]. split; [exact I|]. split; reflexivity. Qed.

(** ** C87 *)
(** Whenever no thread is writing, the file holds what it held at first and then the records of the calls
    that are over, whole, in the order of their returns. *)
Theorem C87_file : forall file ls s, mrun _ _ _ file_body (m_init _ _ _ file) ls s -> n_lock s = None ->
  n_obj s = file +++ sconcat (map (fun c => file_text (fst c)) (backs ls)).
Proof. intros file ls s H Hl. destruct (run_serial _ _ _ _ H) as (s1 & Hs & Ho). rewrite Ho by auto. now apply file_serial in Hs as [-> _]. Qed.
Print Assumptions C87_file.
(** While a thread is writing: these, and the beginning of its own record. *)
Theorem C87_within : forall file ls s j, mrun _ _ _ file_body (m_init _ _ _ file) ls s -> n_lock s = Some j ->
  exists c p first rest, n_at s j = In c p /\ file_text c = first +++ rest /\
  n_obj s = file +++ sconcat (map (fun c => file_text (fst c)) (backs ls)) +++ first.
Proof.
  intros file ls s j H Hl. destruct (run_within _ _ _ _ _ H Hl) as (s1 & c & p & Hs & Hp & Hr). apply file_serial in Hs as [-> _].
  exists c, p. unfold file_body, file_text in *. destruct (pretty_cases (l_log c)) as [[t Ht]|Ht]; rewrite Ht in *.
  - apply l_write_reaches in Hr as (done & rest & Hc & Ho & _). exists (sconcat done), (sconcat rest). split; auto.
    split; [now rewrite <- sconcat_app, <- Hc, chop_all|]. rewrite Ho. now rewrite sapp_assoc.
  - exists "", "". split; auto. split; auto. apply stop_reaches in Hr as [_ ->]. now rewrite sapp_nil_r.
Qed.
Print Assumptions C87_within.
(** A call returns if its record has a text, else it throws; it then writes nothing. *)
Theorem C87_result : forall file ls s i c r, mrun _ _ _ file_body (m_init _ _ _ file) ls s -> List.In (NBack i c r) ls ->
  (exists t, pretty (l_log c) = Ok t /\ r = inl tt /\ file_text c = t +++ newline) \/
  (pretty (l_log c) = Exn type_error_316 /\ r = inr type_error_316 /\ file_text c = "").
Proof.
  intros file ls s i c r H Hin. destruct (run_serial _ _ _ _ H) as (s1 & Hs & _). apply file_serial in Hs as [_ Hs].
  apply in_backs in Hin. rewrite Forall_forall in Hs. apply Hs in Hin. cbn in Hin. subst r.
  unfold file_result, file_text. destruct (pretty_cases (l_log c)) as [[t Ht]|Ht]; rewrite Ht; [left; eauto|right; auto].
Qed.
Print Assumptions C87_result.
(** Reading a new log file when no thread is writing gives back the records, one for each call that
    returned, in this order, and nothing else. *)
Theorem C87_read : forall ls s, mrun _ _ _ file_body (m_init _ _ _ "") ls s -> n_lock s = None ->
  Forall (fun c => jgood (l_message c) = true) (logged_calls (backs ls)) ->
  forall js, reads (n_obj s) js <-> js = map (fun c => JObj [("info", JStr (l_info c)); ("message", l_message c)]) (logged_calls (backs ls)).
Proof.
  intros ls s H Hl Hg js. destruct (run_serial _ _ _ _ H) as (s1 & Hs & Ho). rewrite Ho by auto. apply file_serial in Hs as [-> Hs].
  pose proof (reads_records _ Hs Hg) as X. cbn [append]. split; [intros Y; exact (reads_fun _ _ Y _ X)|intros ->; exact X].
Qed.
Print Assumptions C87_read.
(** The messages are good values if their parts are (all that was received is). *)
Theorem C87_good : forall l header parent meta content m,
  jgood header = true -> jgood parent = true -> jgood meta = true -> jgood content = true ->
  at_level l header parent meta content = Ok m -> jgood m = true.
Proof. exact at_level_good. Qed.
Print Assumptions C87_good.
(** A value has an indented text exactly if it has a compact one, that is if its strings are UTF-8. *)
Theorem C87_same_failure : forall j, (exists t, pretty j = Ok t) <-> (exists t, dump EStrict j = Ok t).
Proof.
  intros j. unfold pretty, dump. pose proof (pretty_dump j 0) as [H1 H2].
  destruct (pretty_opt 0 j), (dump_opt EStrict j); split; intros [t Ht]; eauto; try discriminate; [discriminate (H2 eq_refl)|discriminate (H1 eq_refl)].
Qed.
Print Assumptions C87_same_failure.
(** No deadlock, and one thread at a time. *)
Theorem C87_no_deadlock : forall file ls s i, mrun _ _ _ file_body (m_init _ _ _ file) ls s -> n_at s i <> Out ->
  (exists ls' s' c r, mrun _ _ _ file_body s ls' s' /\ Forall no_call ls' /\ List.In (NBack i c r) ls' /\ n_at s' i = Out) /\
  (forall j, inside s i -> inside s j -> i = j).
Proof. intros file ls s i H Hi. split; [exact (run_finish _ _ _ _ _ H Hi)|]. intros j. exact (run_exclusive _ _ _ _ _ _ H). Qed.
Print Assumptions C87_no_deadlock.
(** Three threads; the second one's message is not UTF-8. *)
Definition log_call (info : string) (m : json) (cuts : list nat) : lcall := {| l_info := info; l_message := m; l_cuts := cuts; l_cuts2 := cuts |}.
Definition three_calls : list (nat * option lcall) :=
  List.concat (repeat [(1, Some (log_call "one" (JObj [("a", JArr [JInt 1; JNull]); ("b", JObj [])]) [3; 5]));
                  (2, Some (log_call "two" (JStr (String (chr 255) "")) []));
                  (3, Some (log_call "three" (JInt (-7)) [0; 20]))] 20).
Definition three_run := mexec file_body (firstn 33 three_calls) (m_init _ _ _ "").
Example C87_ex : mrun _ _ _ file_body (m_init _ _ _ "") (fst three_run) (snd three_run) /\ n_lock (snd three_run) = None /\
  map l_info (logged_calls (backs (fst three_run))) = ["one"; "three"] /\
  n_obj (snd three_run) =
"{
    ""info"": ""one"",
    ""message"": {
        ""a"": [
            1,
            null
        ],
        ""b"": {}
    }
}
{
    ""info"": ""three"",
    ""message"": -7
}
" /\
  Forall (fun c => jgood (l_message c) = true) (logged_calls (backs (fst three_run))).
Proof. split; [apply mexec_run|]. split; [vm_compute; reflexivity|]. split; [vm_compute; reflexivity|]. split; [vm_compute; reflexivity|repeat constructor]. Qed.
(** While the third thread is writing, and another one waits. *)
Definition third_run := mexec file_body (firstn 27 three_calls) (m_init _ _ _ "").
Example C87_within_ex : mrun _ _ _ file_body (m_init _ _ _ "") (fst third_run) (snd third_run) /\ n_lock (snd third_run) = Some 3 /\
  n_obj (snd third_run) =
"{
    ""info"": ""one"",
    ""message"": {
        ""a"": [
            1,
            null
        ],
        ""b"": {}
    }
}
{
    ""info"": ""three" /\ n_at (snd third_run) 1 <> Out.
Proof. split; [apply mexec_run|]. split; [vm_compute; reflexivity|]. split; [vm_compute; reflexivity|vm_compute; discriminate]. Qed.

(** The console: each call writes its line and its message; a call that throws may leave its line
    ([early]: as in C++17). *)
Theorem C87_console : forall early out ls s, mrun _ _ _ (console_body early) (m_init _ _ _ out) ls s ->
  (n_lock s = None -> n_obj s = out +++ sconcat (map (fun c => console_text early (fst c)) (backs ls))) /\
  (forall i c r, List.In (NBack i c r) ls ->
     (exists t, pretty (l_message c) = Ok t /\ r = inl tt /\ console_text early c = l_info c +++ newline +++ t +++ newline) \/
     (pretty (l_message c) = Exn type_error_316 /\ r = inr type_error_316 /\ console_text early c = if early then l_info c +++ newline else "")).
Proof.
  intros early out ls s H. destruct (run_serial _ _ _ _ H) as (s1 & Hs & Ho). apply console_serial in Hs as [-> Hs]. split; [exact Ho|].
  intros i c r Hin. apply in_backs in Hin. rewrite Forall_forall in Hs. apply Hs in Hin. cbn in Hin. subst r.
  unfold console_result, console_text. destruct (pretty_cases (l_message c)) as [[t Ht]|Ht]; rewrite Ht; [left; eauto|right; auto].
Qed.
Print Assumptions C87_console.
Definition console_run := mexec (console_body true) (firstn 40 three_calls) (m_init _ _ _ "").
Example C87_console_ex : mrun _ _ _ (console_body true) (m_init _ _ _ "") (fst console_run) (snd console_run) /\
  map (fun x => (l_info (fst x), snd x)) (backs (fst console_run)) = [("one", inl tt); ("two", inr type_error_316)].
Proof. split; [apply mexec_run|]. vm_compute. reflexivity. Qed.
(** Every line of the console is followed by its message: refuted in C++17, by a message that is not
    UTF-8. *)
Theorem C87_console_whole_refuted : ~ (forall ls s, mrun _ _ _ (console_body true) (m_init _ _ _ "") ls s -> n_lock s = None ->
  n_obj s = sconcat (map (fun c => match pretty (l_message c) with Ok t => l_info c +++ newline +++ t +++ newline | _ => "" end) (logged_calls (backs ls)))).
Proof.
  intros H. pose (x := mexec (console_body true) (repeat (1, Some (log_call "two" (JStr (String (chr 255) "")) [])) 4) (m_init _ _ _ "")).
  specialize (H (fst x) (snd x) (mexec_run _ _ _)). vm_compute in H. specialize (H eq_refl). discriminate.
Qed.
Print Assumptions C87_console_whole_refuted.
