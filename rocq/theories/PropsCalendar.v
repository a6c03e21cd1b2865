(** Dates made by several threads at the same time: C95. *)
From Verif Require Import Base BaseFacts Json JsonText Logger HostSpec ClockProofs Calendar CalendarSpec CalendarProofs.

(** C95. Whatever the threads do at the same time, each of the six parts of the date returned by a call is
    that of the call's own instant or of the instant of a call in progress at the same time; the fraction is
    its own. *)
Theorem C95_mixture : forall c ls s i now before during x, date_run (t_init c) ls s -> call_of i now before during x ls ->
  mixture (fun u => u = now \/ overlaps i before during u) now x.
Proof. exact mixtures. Qed.
Print Assumptions C95_mixture.
(** C95. If the overlapping calls read the clock in the same second, the date is the one of the call's instant. *)
Theorem C95_same_second : forall c ls s i now before during x, date_run (t_init c) ls s -> call_of i now before during x ls ->
  (forall u, overlaps i before during u -> (u / 1000000 = now / 1000000)%Z) -> x = iso8601 now.
Proof. exact same_second. Qed.
Print Assumptions C95_same_second.
(** C95. In particular if no call overlaps, as in the default server, where one thread makes all headers. *)
Theorem C95_one_thread : forall c ls s i now before during x, date_run (t_init c) ls s -> call_of i now before during x ls ->
  (forall j u, In (TCall j u) ls -> j = i) -> x = iso8601 now /\ exists u, denotes x = Some u /\ (u / 1000000 = now / 1000000)%Z.
Proof.
  intros c ls s i now before during x H Hc H1. assert (E : x = iso8601 now).
  { apply (same_second _ _ _ _ _ _ _ _ H Hc). intros u (j & N & Hu). exfalso. apply N. destruct Hc as (rest & -> & _). destruct Hu as [(a & b & -> & _)|Hu].
    - apply (H1 j u). apply in_or_app. left. apply in_or_app. right; now left.
    - apply (H1 j u). apply in_or_app. right. right. apply in_or_app. now left. }
  split; [exact E|]. subst x. apply iso_second. destruct Hc as (rest & -> & _). apply run_app in H as (s1 & _ & H).
  change (TCall i now :: (during ++ TBack i (iso8601 now) :: rest))%list with ([TCall i now] ++ (during ++ TBack i (iso8601 now) :: rest))%list in H.
  apply run_app in H as (s2 & H & _). apply (run_snoc s1 []) in H as (s3 & _ & H). now inversion H.
Qed.
Print Assumptions C95_one_thread.

(** An executable version: [inl (i, t)] a call, [inr i] the next step of thread [i]. *)
Definition date_move (a : (nat * Z) + nat) (s : dsystem) : option (dlab * dsystem) :=
  match a with
  | inl (i, t) => match t_at s i with Away => if (0 <=? t)%Z then Some (TCall i t, {| t_obj := t_obj s; t_at := put_at i (Writes t all_fields) (t_at s) |}) else None | _ => None end
  | inr i =>
      match t_at s i with
      | Away => None
      | Writes t (x :: l) => Some (TTau i, {| t_obj := set_field x (gm t x) (t_obj s); t_at := put_at i (Writes t l) (t_at s) |})
      | Writes t [] => Some (TTau i, {| t_obj := t_obj s; t_at := put_at i (Reads t (fun _ => 0%Z) all_fields) (t_at s) |})
      | Reads t got (x :: l) => Some (TTau i, {| t_obj := t_obj s; t_at := put_at i (Reads t (set_field x (t_obj s x) got) l) (t_at s) |})
      | Reads t got [] => Some (TBack i (stamp got t), {| t_obj := t_obj s; t_at := put_at i Away (t_at s) |})
      end
  end.
Lemma date_move_ok a s l s' : date_move a s = Some (l, s') -> date_step s l s'.
Proof.
  destruct s as [c f]. destruct a as [[i t]|i]; cbn [date_move t_at t_obj]; destruct (f i) as [|u [|x r]|u got [|x r]] eqn:Hf; try discriminate.
  - destruct (0 <=? t)%Z eqn:Ht; [|discriminate]. intros [= <- <-]. constructor; [exact Hf|]. now apply Z.leb_le.
  - intros [= <- <-]. now constructor.
  - intros [= <- <-]. now apply (t_write c f i u [] x r).
  - intros [= <- <-]. now constructor.
  - intros [= <- <-]. now apply (t_read c f i u got [] x r).
Qed.
Fixpoint date_exec (l : list ((nat * Z) + nat)) (ls : list dlab) (s : dsystem) : list dlab * dsystem :=
  match l with
  | [] => (ls, s)
  | a :: l => match date_move a s with Some (x, s') => date_exec l (ls ++ [x]) s' | None => date_exec l ls s end
  end.
Lemma date_exec_ok l ls s0 s : date_run s0 ls s -> date_run s0 (fst (date_exec l ls s)) (snd (date_exec l ls s)).
Proof.
  revert ls s. induction l as [|a l IH]; intros ls s H; cbn [date_exec]; [exact H|].
  destruct (date_move a s) as [[x s']|] eqn:Hm; [|now apply IH]. apply IH. eapply tr_snoc; [exact H|]. now apply (date_move_ok a).
Qed.
Definition zero_tm : tm := fun _ => 0%Z.
Definition dates l := date_exec l [] (t_init zero_tm).
Lemma dates_ok l : date_run (t_init zero_tm) (fst (dates l)) (snd (dates l)).
Proof. apply date_exec_ok. constructor. Qed.
Definition go (i n : nat) : list ((nat * Z) + nat) := repeat (inr i) n.

(** 2024-01-31T23:59:59.500000Z and 2024-02-01T00:00:00.100000Z. *)
Definition last_january : Z := 1706745599500000.
Definition first_february : Z := 1706745600100000.
Definition taus (i n : nat) : list dlab := repeat (TTau i) n.
(** Two calls in the same second, mixed: both dates are right. *)
Example C95_ex : let l := ([inl (0, last_january)] ++ go 0 4 ++ [inl (1, (last_january + 100000)%Z)] ++ go 1 9 ++ go 0 10 ++ go 1 5)%list in
  date_run (t_init zero_tm) (fst (dates l)) (snd (dates l)) /\
  call_of 0 last_january [] (taus 0 4 ++ [TCall 1 (last_january + 100000)] ++ taus 1 9 ++ taus 0 9) "2024-01-31T23:59:59.500000Z" (fst (dates l)) /\
  (forall u, overlaps 0 [] (taus 0 4 ++ [TCall 1 (last_january + 100000)] ++ taus 1 9 ++ taus 0 9) u -> u / 1000000 = last_january / 1000000)%Z /\
  In (TBack 1 "2024-01-31T23:59:59.600000Z") (fst (dates l)).
Proof.
  cbv zeta. split; [apply dates_ok|]. split; [|split].
  - eexists. split; [vm_compute; reflexivity|]. intros x Hin. cbn in Hin. repeat (destruct Hin as [Hin|Hin]; [discriminate|]). exact Hin.
  - intros u (j & _ & [(a & b & H & _)|Hin]); [now destruct a|]. cbn in Hin. repeat (destruct Hin as [Hin|Hin]; [try discriminate; injection Hin as _ <-; reflexivity|]). destruct Hin.
  - vm_compute. auto 50.
Qed.
(** A thread alone. *)
Example C95_one_thread_ex : let l := ([inl (0, last_january)] ++ go 0 14)%list in
  date_run (t_init zero_tm) (fst (dates l)) (snd (dates l)) /\ call_of 0 last_january [] (taus 0 13) "2024-01-31T23:59:59.500000Z" (fst (dates l)) /\
  (forall j u, In (TCall j u) (fst (dates l)) -> j = 0).
Proof.
  cbv zeta. split; [apply dates_ok|]. split.
  - exists []. split; [vm_compute; reflexivity|]. intros x Hin. cbn in Hin. repeat (destruct Hin as [Hin|Hin]; [discriminate|]). exact Hin.
  - intros j u Hin. vm_compute in Hin. repeat (destruct Hin as [Hin|Hin]; [try discriminate; injection Hin as <- _; reflexivity|]). destruct Hin.
Qed.
(** Without this, the date is not that of the call. It need not be a date: the 31st of February. *)
Theorem C95_no_date_refuted : exists c ls s i x, date_run (t_init c) ls s /\ In (TBack i x) ls /\ x = "2024-02-31T23:59:59.500000Z" /\ denotes x = None.
Proof.
  set (l := ([inl (0, last_january)] ++ go 0 7 ++ [inl (1, first_february)] ++ go 1 2 ++ go 0 7)%list).
  exists zero_tm, (fst (dates l)), (snd (dates l)), 0, "2024-02-31T23:59:59.500000Z". split; [apply dates_ok|]. split; [vm_compute; auto 50|]. split; vm_compute; reflexivity.
Qed.
Print Assumptions C95_no_date_refuted.
(** And it may lie in the future: later than the clock was when any of the calls read it, here by 0.4 seconds. *)
Theorem C95_future_refuted : exists c ls s i x t, date_run (t_init c) ls s /\ In (TBack i x) ls /\ denotes x = Some t /\
  forall j u, In (TCall j u) ls -> (u + 300000 < t)%Z.
Proof.
  set (l := ([inl (0, last_january)] ++ go 0 7 ++ [inl (1, first_february)] ++ go 1 6 ++ go 0 7)%list).
  exists zero_tm, (fst (dates l)), (snd (dates l)), 0, "2024-02-01T00:00:00.500000Z", 1706745600500000%Z. split; [apply dates_ok|]. split; [vm_compute; auto 50|]. split; [vm_compute; reflexivity|].
  intros j u Hin. vm_compute in Hin. repeat (destruct Hin as [Hin|Hin]; [try discriminate; injection Hin as _ <-; lia|]). destruct Hin.
Qed.
Print Assumptions C95_future_refuted.
