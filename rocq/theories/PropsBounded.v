(** The iopub sockets of the default server with their high-water marks: C104. *)
From Verif Require Import Base BaseFacts Json JsonText Utf8 Utf8Proofs Auth Message MessageProofs WireSpec WireLemmas History HistoryProofs Comm Tree Kernel KernelSpec KernelProofs KernelRun KernelReplies KernelDemo
  Server ServerSpec ServerProofs SplitStop ServerExec ServerLemmas ServerDemo SequentialSpec Sequential SequentialProofs AnsweredSpec Answered PropsSequential ClientSpec Client PropsClient HeardSpec Heard PropsHeard
  Join JoinSpec JoinProofs Bounded BoundedSpec BoundedProofs.

(** C104. Whatever is dropped, a subscriber reads publications as they were published, in their order and not twice, and only those
    with its topic; and it reads only what was sent since it was connected. *)
Theorem C104_read : forall U (listener : channel -> frames -> kprog U unit) lo hi lo' hi' k start ls b i,
  brun listener lo hi lo' hi' (b_init k start) ls b ->
  match topic_of i ls with
  | Some t => some_of t (read_by i ls) (after_subscribe i ls) /\ some_of t (read_by i ls) (start :: spoken ls)
  | None => read_by i ls = []
  end.
Proof.
  intros U listener lo hi lo' hi' k start ls b i H. destruct (brun_readers listener lo hi lo' hi' k start ls b H) as (N & R & Rd).
  destruct (Nat.ltb_spec i (subscribed ls)) as [L|L]; [|rewrite (topic_count i ls L); auto].
  destruct (nth_error (b_readers b) i) as [a|] eqn:Ha; [|apply nth_error_None in Ha; lia].
  destruct (Rd i a Ha) as (T & E & S & _). rewrite T, <- E. apply some_prefix in S. split; [exact S|].
  destruct (brun_pub listener lo hi lo' hi' k start ls b H) as (O & Sb).
  assert (X : sub (after_subscribe i ls) (sent_on ls)).
  { clear. revert i. induction ls as [|l ls IH]; intros i; [constructor|]. cbn. destruct l; auto; [apply sub_skip; auto|]. destruct i; auto. apply sub_all. }
  eapply some_sub; [exact S|]. eapply sub_trans; [exact X|]. rewrite <- O. eapply sub_trans; [|exact Sb]. unfold f_all. apply sub_firsts.
Qed.
Print Assumptions C104_read.

(** C104. If the publisher thread keeps up, it sends everything, in order; when it waits, it has sent everything. *)
Theorem C104_sent : forall U (listener : channel -> frames -> kprog U unit) lo hi lo' hi' k start ls b,
  brun listener lo hi lo' hi' (b_init k start) ls b -> publisher_keeps_up lo ls ->
  prefix (sent_on ls) (start :: spoken ls) /\ (fnext (fpub b) = None -> f_pc (fpub b) = FPoll -> sent_on ls = start :: spoken ls).
Proof.
  intros U listener lo hi lo' hi' k start ls b H K. pose proof (brun_kept listener lo hi lo' hi' k start ls b H K) as A. destruct (brun_pub listener lo hi lo' hi' k start ls b H) as (O & _).
  rewrite <- O. split; [now apply f_all_prefix|]. intros N P. destruct (f_blocked _ N P) as (_ & _ & ->). exact A.
Qed.
Print Assumptions C104_sent.

(** C104. If a subscriber keeps up, it misses nothing of what is sent with its topic since it was connected: what it has not read is
    on its way. *)
Theorem C104_received : forall U (listener : channel -> frames -> kprog U unit) lo hi lo' hi' k start ls b i t,
  brun listener lo hi lo' hi' (b_init k start) ls b -> topic_of i ls = Some t -> reader_keeps_up lo' i ls ->
  exists a, nth_error (b_readers b) i = Some a /\ all_of t (read_by i ls ++ r_pipe a) (after_subscribe i ls).
Proof.
  intros U listener lo hi lo' hi' k start ls b i t H T K. destruct (brun_readers listener lo hi lo' hi' k start ls b H) as (N & R & Rd).
  destruct (Nat.ltb_spec i (subscribed ls)) as [L|L]; [|rewrite (topic_count i ls L) in T; discriminate].
  destruct (nth_error (b_readers b) i) as [a|] eqn:Ha; [|apply nth_error_None in Ha; lia].
  destruct (Rd i a Ha) as (T' & E & _ & S). exists a. split; auto. rewrite T in T'. injection T' as ->. rewrite <- E. auto.
Qed.
Print Assumptions C104_received.

(** C104. Few publications are never lost, whatever the threads and subscribers do. *)
Theorem C104_few : forall U (listener : channel -> frames -> kprog U unit) lo hi lo' hi' k start ls b,
  brun listener lo hi lo' hi' (b_init k start) ls b -> S (List.length (spoken ls)) < lo -> S (List.length (spoken ls)) < lo' ->
  publisher_keeps_up lo ls /\ forall i, reader_keeps_up lo' i ls.
Proof.
  intros U listener lo hi lo' hi' k start ls b H L L'. split.
  - intros l1 l2 ->. rewrite spoken_app, app_length in L. lia.
  - intros i l1 l2 t a -> T A. destruct (brun_prefix listener lo hi lo' hi' _ _ _ _ H) as (b1 & H1). destruct (brun_pub listener lo hi lo' hi' k start l1 b1 H1) as (O & Sb).
    assert (X : List.length a <= List.length (after_subscribe i l1)) by (clear - A; induction A; cbn; lia).
    assert (Y : List.length (after_subscribe i l1) <= List.length (sent_on l1)).
    { clear. revert i. unfold sent_on. induction l1 as [|l ls IH]; intros i; [cbn; lia|]. destruct l; cbn; try apply IH; [specialize (IH i); lia|]. destruct i; auto. }
    assert (Z : List.length (sent_on l1) <= S (List.length (spoken l1))).
    { assert (G : forall (x y : list frames), sub x y -> List.length x <= List.length y) by (induction 1; cbn; lia).
      rewrite <- O. etransitivity; [|exact (G _ _ Sb)]. unfold f_all. rewrite app_length. lia. }
    rewrite spoken_app, app_length in L'. lia.
Qed.
Print Assumptions C104_few.

(** C104. Nothing else depends on it: publications never make the main thread wait; it, the heartbeat and the arrivals make a run of
    Server.v, in which nothing is lost. *)
Theorem C104_same : forall U (listener : channel -> frames -> kprog U unit) lo hi lo' hi' k start ls b,
  brun listener lo hi lo' hi' (b_init k start) ls b ->
  exists l2 s, drun listener (d_init k start) l2 s /\ filter visible l2 = bseen ls /\ same_but_pub (b_sys b) s.
Proof.
  intros U listener lo hi lo' hi' k start ls b H. destruct (bmain_lag listener lo hi lo' hi' k start ls b H) as (g & l2 & D & (L & _) & V). exists l2, (with_pub g (b_sys b)).
  split; auto. split; auto. unfold same_but_pub. cbn. repeat split. exact L.
Qed.
Print Assumptions C104_same.
Theorem C104_goes_on : forall U (listener : channel -> frames -> kprog U unit) lo hi lo' hi' b l s',
  lo <= hi -> main_step listener (b_sys b) l s' -> exists taken b', bstep listener lo hi lo' hi' b (BMain l taken) b' /\ d_pc (b_sys b') = d_pc s'.
Proof.
  intros U listener lo hi lo' hi' [s rs] l s' L M. cbn [b_sys] in M.
  assert (X : exists taken, fits lo hi taken s l).
  { destruct l as [| | | | | | |e|]; try (now exists true). destruct e; try (now exists true). cbn. destruct (Nat.ltb_spec (waiting s) hi); [exists true; auto|exists false; lia]. }
  destruct X as [taken F]. exists taken. eexists. split; [constructor; eassumption|]. cbn. destruct l as [| | | | | | |e|]; try reflexivity. destruct e; try reflexivity. now destruct taken.
Qed.
Print Assumptions C104_goes_on.

(** C104. With the kernel, what is published, and of which a subscriber reads a part (C104_read), is the complete blocks of the messages
    that were handed to the listener and accepted, in their order, and a part of the block of the last one, none when the main thread is
    between two messages. *)
Theorem C104_blocks : forall U (E : env U) raw lo hi lo' hi' k start ls b, e_split E = false -> quiet E -> env_utf8 E -> user_publishes E raw -> ~ raw "status" -> e_eh E = EStrict ->
  brun (fun c w => dispatch E w c) lo hi lo' hi' (b_init k start) ls b ->
  exists hs rest ms bs last, handed (bseen ls) = (hs ++ rest)%list /\ understood E hs ms /\
    Forall2 (fun x b => said E (fst x) (m_header (m_base (snd x))) b true) ms bs /\
    ((last = [] /\ List.length rest <= 1) \/ exists c w m ok, rest = [(c, w)] /\ accepted E w m /\ said E c (m_header (m_base m)) last ok) /\
    (place_of (d_pc (b_sys b)) = Between -> rest = []) /\ spoken ls = (List.concat bs ++ last)%list.
Proof.
  intros U E raw lo hi lo' hi' k start ls b Hs Hq Hu HU Hr He H. destruct (C104_same _ _ _ _ _ _ _ _ _ _ H) as (l2 & s & D & V & (Pc & _)).
  destruct (C68_stream U E raw Hs Hq Hu HU Hr k start l2 s D) as (es & Hes & St & _).
  destruct (stream_said E He _ _ _ St) as (hs & rest & ms & bs & last & H1 & H2 & H3 & H4 & H6 & H5).
  exists hs, rest, ms, bs, last.
  assert (P : published l2 = spoken ls).
  { transitivity (published (bseen ls)).
    - rewrite <- V. clear. induction l2 as [|l l2 IH]; auto. unfold published in *. cbn [filter flat_map]. destruct l; cbn [visible flat_map]; rewrite <- IH; reflexivity.
    - clear - H. unfold published, bseen, spoken. induction H as [|b0 ls b1 l b2 H IH S]; auto. rewrite !flat_map_app, IH. f_equal. destruct S as [? l| | | |? l ? ? ? Ar| |]; auto; destruct l as [| | | | | | |e|]; auto; first [exact (False_ind _ Ar)|destruct e; reflexivity]. }
  assert (Q : handed l2 = handed (bseen ls)).
  { rewrite <- V. clear. induction l2 as [|l l2 IH]; auto. unfold handed in *. cbn [filter flat_map]. destruct l; cbn [visible flat_map]; rewrite <- IH; reflexivity. }
  rewrite <- Q, (episodes_handed _ _ Hes). do 4 (split; [assumption|]). split; [now rewrite Pc|]. now rewrite <- H4, <- published_pubs, P.
Qed.
Print Assumptions C104_blocks.

(** ** Executed runs *)
Section Exec.
  Context {U : Type} (listener : channel -> frames -> kprog U unit) (lo hi lo' hi' : nat).
  Inductive bchoice := BGo | BGSub (t : string) | BGRead (i : nat) | BG (c : choice).
  (** Everything is taken as long as possible. *)
  Definition takes (s : dsys U) (l : label) : bool := match l with Emitted (EPublish _ _ _) => Nat.ltb (waiting s) hi | _ => true end.
  Definition offerf (w : frames) (a : reader) : reader :=
    if (wants (r_topic a) w && Nat.ltb (List.length (r_pipe a)) hi')%bool then {| r_topic := r_topic a; r_pipe := r_pipe a ++ [w]; r_read := r_read a |} else a.
  Definition bnext (c : bchoice) (b : bsys U) : option (blabel * bsys U) :=
    let s := b_sys b in
    match c with
    | BGo => match mainf listener s with Some (l, s') => Some (BMain l (takes s l), {| b_sys := delivered (takes s l) s l s'; b_readers := b_readers b |}) | None => None end
    | BGSub t => Some (BSubscribe t, {| b_sys := s; b_readers := b_readers b ++ [{| r_topic := t; r_pipe := []; r_read := [] |}] |})
    | BGRead i =>
        match nth_error (b_readers b) i with
        | Some a => match r_pipe a with w :: q => Some (BRead i w, {| b_sys := s; b_readers := set_nth i {| r_topic := r_topic a; r_pipe := q; r_read := r_read a ++ [w] |} (b_readers b) |}) | [] => None end
        | None => None
        end
    | BG GMain => None
    | BG GPub =>
        if alivef (d_pc s) then
          match fnext (m_pub (d_mem s)) with
          | Some f =>
              let s' := {| d_pc := d_pc s; d_mem := set_pub f (d_mem s) |} in
              match sending (m_pub (d_mem s)) with
              | Some w => Some (BSend w, {| b_sys := s'; b_readers := List.map (offerf w) (b_readers b) |})
              | None => Some (BPub, {| b_sys := s'; b_readers := b_readers b |})
              end
          | None => None
          end
        else None
    | BG GHb => if alivef (d_pc s) then match fnext (m_hb (d_mem s)) with Some f => Some (BBeat, {| b_sys := {| d_pc := d_pc s; d_mem := set_hb f (d_mem s) |}; b_readers := b_readers b |}) | None => None end else None
    | BG c => match dnext listener c s with Some (l, s') => Some (BEnv l, {| b_sys := s'; b_readers := b_readers b |}) | None => None end
    end.
  Lemma offerf_ok w a : lo' <= hi' -> offer lo' hi' w a (offerf w a).
  Proof.
    intros L. unfold offerf. destruct (wants (r_topic a) w) eqn:W; cbn [andb]; [|now constructor]. destruct (Nat.ltb_spec (List.length (r_pipe a)) hi'); [now constructor|]. apply of_full; auto. lia.
  Qed.
  Lemma takes_ok s l : lo <= hi -> fits lo hi (takes s l) s l.
  Proof. intros L. unfold takes, fits. destruct l as [| | | | | | |e|]; auto. destruct e; auto. destruct (Nat.ltb_spec (waiting s) hi); lia. Qed.
  Lemma bnext_sound c b l b' : lo <= hi -> lo' <= hi' -> bnext c b = Some (l, b') -> bstep listener lo hi lo' hi' b l b'.
  Proof.
    intros L L'. destruct b as [s rs]. unfold bnext. cbn [b_sys b_readers]. cbv zeta. destruct c as [|t|i|c].
    - destruct (mainf listener s) as [[l1 s1]|] eqn:M; [|discriminate]. intros [= <- <-]. constructor; [now apply mainf_sound|now apply takes_ok].
    - intros [= <- <-]. constructor.
    - destruct (nth_error rs i) as [a|] eqn:A; [|discriminate]. destruct (r_pipe a) eqn:Q; [discriminate|]. intros [= <- <-]. now constructor.
    - destruct c as [| | |ch w|w|].
      + discriminate.
      + destruct (alivef (d_pc s)) eqn:A; [|discriminate]. apply alivef_ok in A. destruct (fnext (m_pub (d_mem s))) eqn:N; [|discriminate]. destruct (sending (m_pub (d_mem s))) eqn:Sd; intros [= <- <-]; destruct s; constructor; auto.
        clear N Sd A. induction rs; constructor; auto. now apply offerf_ok.
      + destruct (alivef (d_pc s)) eqn:A; [|discriminate]. apply alivef_ok in A. destruct (fnext (m_hb (d_mem s))) eqn:N; [|discriminate]. intros [= <- <-]; destruct s; constructor; auto.
      + destruct (dnext listener (GArrive ch w) s) as [[l1 s1]|] eqn:N; [|discriminate]. intros [= <- <-]. constructor; [eapply dnext_sound; eauto|]. destruct ch; cbn in N; injection N as <- <-; exact I.
      + destruct (dnext listener (GBeat w) s) as [[l1 s1]|] eqn:N; [|discriminate]. intros [= <- <-]. constructor; [eapply dnext_sound; eauto|]. cbn in N. injection N as <- <-. exact I.
      + destruct (dnext listener GStdin s) as [[l1 s1]|] eqn:N; [|discriminate]. intros [= <- <-]. constructor; [eapply dnext_sound; eauto|]. cbn in N. injection N as <- <-. exact I.
  Qed.
  Fixpoint bmany (c : bchoice) (n : nat) (ls : list blabel) (b : bsys U) : list blabel * bsys U :=
    match n with 0 => (ls, b) | S n => match bnext c b with Some (l, b') => bmany c n (ls ++ [l]) b' | None => (ls, b) end end.
  Fixpoint bexec (cs : list (bchoice * nat)) (ls : list blabel) (b : bsys U) : list blabel * bsys U :=
    match cs with [] => (ls, b) | (c, n) :: r => let (ls', b') := bmany c n ls b in bexec r ls' b' end.
  Lemma bexec_sound cs b0 ls b : lo <= hi -> lo' <= hi' -> brun listener lo hi lo' hi' b0 ls b -> brun listener lo hi lo' hi' b0 (fst (bexec cs ls b)) (snd (bexec cs ls b)).
  Proof.
    intros L L'.
    assert (M : forall c n ls b, brun listener lo hi lo' hi' b0 ls b -> brun listener lo hi lo' hi' b0 (fst (bmany c n ls b)) (snd (bmany c n ls b))).
    { induction n as [|n IH]; intros l1 b1 H; cbn; auto. destruct (bnext c b1) as [[l' b']|] eqn:E; auto. apply IH. econstructor; eauto. now apply bnext_sound in E. }
    revert ls b. induction cs as [|[c n] cs IH]; intros ls b H; cbn; auto. pose proof (M c n ls b H) as D. destruct (bmany c n ls b) as [ls' b']. now apply IH.
  Qed.
End Exec.
Definition bound_run hi hi' cs := bexec default_listener hi hi' cs [] (b_init demo_start ["start"]).
Lemma bound_run_ok lo hi lo' hi' cs : lo <= hi -> lo' <= hi' ->
  brun default_listener lo hi lo' hi' (b_init demo_start ["start"]) (fst (bound_run hi hi' cs)) (snd (bound_run hi hi' cs)).
Proof. intros L L'. apply bexec_sound; auto. constructor. Qed.
(** Two subscribers, one to statuses only; a cell is executed, the publisher thread and the subscribers follow. *)
Definition keen_choices : list (bchoice * nat) :=
  [(BGSub "", 1); (BGSub "kernel_core.k1.status", 1); (BG (GArrive SHELL exec1), 1); (BGo, 500); (BG GPub, 500); (BGRead 0, 10); (BGRead 1, 10)].
Definition types_of (ws : list frames) : list (option (option string * option string)) :=
  List.map (fun w => match subscriber_view w with Some (ty, _, st) => Some (ty, st) | None => None end) ws.
Definition keen := bound_run 10 10 keen_choices.
Example C104_few_ex : List.length (spoken (fst keen)) = 5 /\
  types_of (read_by 0 (fst keen)) = [None; Some (Some "status", Some "busy"); Some (Some "execute_input", None); Some (Some "stream", None); Some (Some "execute_result", None); Some (Some "status", Some "idle")] /\
  types_of (read_by 1 (fst keen)) = [Some (Some "status", Some "busy"); Some (Some "status", Some "idle")] /\
  fnext (fpub (snd keen)) = None /\ f_pc (fpub (snd keen)) = FPoll.
Proof. vm_compute. auto. Qed.

(** C104. The end of a cell can be lost: the request is answered on the shell socket, the main and the publisher thread wait, the
    subscriber has read everything, and neither the result nor the idle status is among it. *)
Definition loud_choices : list (bchoice * nat) :=
  [(BGSub "", 1); (BG (GArrive SHELL exec1), 1); (BGo, 500); (BG GPub, 500); (BGRead 0, 10)].
Definition loud := bound_run 4 4 loud_choices.
Definition answered_on (c : channel) (ls : list blabel) : list (option json) :=
  flat_map (fun l => match l with BMain (Emitted (ESend c' m _)) _ => if chan_eqb c' c then [jfield "msg_id" (m_parent_header (m_base m))] else [] | _ => [] end) ls.
Theorem C104_idle_refuted : exists U (E : env U) lo hi lo' hi' k start ls b w q, e_split E = false /\ quiet E /\ e_eh E = EStrict /\
  brun (fun c w => dispatch E w c) lo hi lo' hi' (b_init k start) ls b /\ 0 < lo /\ 0 < lo' /\
  handed (bseen ls) = [(SHELL, w)] /\ accepted E w q /\ answered_on SHELL ls = [jfield "msg_id" (m_header (m_base q))] /\ d_pc (b_sys b) = MPoll /\ m_shellq (d_mem (b_sys b)) = [] /\ m_ctlq (d_mem (b_sys b)) = [] /\
  fnext (fpub b) = None /\ f_pc (fpub b) = FPoll /\ b_readers b = [{| r_topic := ""; r_pipe := []; r_read := read_by 0 ls |}] /\ topic_of 0 ls = Some "" /\ after_subscribe 0 ls = sent_on ls /\
  (exists f, List.In f (spoken ls) /\ status_heard E "idle" (m_header (m_base q)) f) /\
  forall f, List.In f (read_by 0 ls) -> ~ status_heard E "idle" (m_header (m_base q)) f.
Proof.
  assert (Le : 4 <= 4) by lia. assert (R : brun default_listener 4 4 4 4 (b_init demo_start ["start"]) (fst loud) (snd loud)) by (unfold loud; apply bound_run_ok; exact Le).
  exists U0, demo, 4, 4, 4, 4, demo_start, ["start"], (fst loud), (snd loud), exec1, (execute "1" []). split; [reflexivity|]. split; [exact demo_quiet|]. split; [reflexivity|].
  split; [exact R|]. split; [lia|]. split; [lia|]. split; [vm_compute; reflexivity|]. split; [vm_compute; reflexivity|]. split; [vm_compute; reflexivity|]. do 8 (split; [vm_compute; reflexivity|]).
  split.
  - destruct (C104_blocks U0 demo user_types 4 4 4 4 demo_start ["start"] (fst loud) (snd loud) eq_refl demo_quiet demo_utf8 demo_user) as (hs & rest & ms & bs & last & H1 & H2 & H3 & H4 & H5 & H6); [cbn; intuition discriminate|reflexivity|exact R|].
    assert (rest = []) as -> by (apply H5; vm_compute; reflexivity). rewrite app_nil_r in H1. assert (hs = [(SHELL, exec1)]) as -> by (rewrite <- H1; vm_compute; reflexivity).
    assert (A : accepted demo exec1 (execute "1" [])) by (vm_compute; reflexivity).
    pose proof (understood_in demo _ _ SHELL exec1 _ H2 (or_introl eq_refl) A) as I. destruct (forall2_in _ _ _ _ H3 I) as (bl & Hb & Sd). cbn [fst snd] in Sd. inversion Sd as [|b0 idle S0 Hi]; subst bl.
    exists idle. split; [|exact Hi]. rewrite H6. apply in_or_app. left. apply List.in_concat. eexists. split; [exact Hb|]. apply in_or_app. right. now left.
  - intros f Hf Hh. apply heard_view in Hh as Hv. destruct Hv as [x Hx].
    assert (X : existsb (fun f => match subscriber_view f with Some (_, _, Some st) => String.eqb st "idle" | _ => false end) (read_by 0 (fst loud)) = false) by (vm_compute; reflexivity).
    assert (Y : existsb (fun f => match subscriber_view f with Some (_, _, Some st) => String.eqb st "idle" | _ => false end) (read_by 0 (fst loud)) = true); [|rewrite X in Y; discriminate Y].
    apply existsb_exists. exists f. split; [exact Hf|]. destruct Hh as (h & id & tc & (topic & sg & th & tp & tm & bufs & -> & _ & P1 & P2) & _ & P3). cbn [subscriber_view]. rewrite P1, P2, P3. reflexivity.
Qed.
Print Assumptions C104_idle_refuted.

(** A subscriber that reads slowly, with a publisher thread that keeps up, misses the end as well. *)
Definition slow := bound_run 10 4 loud_choices.
Example C104_slow_ex : List.length (sent_on (fst slow)) = 6 /\ List.length (read_by 0 (fst slow)) = 4 /\ publisher_keeps_up 10 (fst slow) /\ ~ reader_keeps_up 4 0 (fst slow) /\
  types_of (read_by 0 (fst slow)) = [None; Some (Some "status", Some "busy"); Some (Some "execute_input", None); Some (Some "stream", None)].
Proof.
  split; [vm_compute; reflexivity|]. split; [vm_compute; reflexivity|].
  assert (R : brun default_listener 10 10 4 4 (b_init demo_start ["start"]) (fst slow) (snd slow)) by (unfold slow; apply bound_run_ok; lia).
  split.
  { intros l1 l2 E. assert (L : List.length (spoken (fst slow)) = 5) by (vm_compute; reflexivity). rewrite E, spoken_app, app_length in L. lia. }
  split; [|vm_compute; reflexivity]. intros K. destruct (C104_received _ _ _ _ _ _ _ _ _ _ 0 "" R) as (a & Ha & A); [vm_compute; reflexivity|exact K|].
  assert (Z : forall a b, all_of "" a b -> List.length a = List.length b).
  { induction 1; cbn; auto. exfalso. apply H. unfold begins. destruct w; [reflexivity|eexists; reflexivity]. }
  apply Z in A. rewrite app_length in A. assert (List.length (read_by 0 (fst slow)) = 4) as E1 by (vm_compute; reflexivity). assert (List.length (after_subscribe 0 (fst slow)) = 6) as E2 by (vm_compute; reflexivity).
  assert (match nth_error (b_readers (snd slow)) 0 with Some a => List.length (r_pipe a) | None => 0 end = 0) as E3 by (vm_compute; reflexivity). rewrite Ha in E3. lia.
Qed.

(** C104. There is no high-water mark with which nothing is lost: for every one, some handler publishes so much that its last
    publication is never sent, although all threads go on until they wait. *)
Definition no_pub : xpub := {| m_topic := ""; m_pbase := {| m_header := JNull; m_parent_header := JNull; m_metadata := JNull; m_content := JNull; m_buffers := [] |} |}.
Fixpoint chatter {U} (n : nat) : kprog U unit :=
  match n with
  | 0 => Do (Ar := @kans U) (KEmit (EPublish SHELL no_pub ["last"])) (fun _ => Ret tt)
  | S n => Do (Ar := @kans U) (KEmit (EPublish SHELL no_pub ["more"])) (fun _ => chatter n)
  end.
Lemma chat {U} (listener : channel -> frames -> kprog U unit) lo hi lo' hi' b0 n : lo <= hi -> forall ls rs m, brun listener lo hi lo' hi' b0 ls {| b_sys := {| d_pc := MInShell (chatter n); d_mem := m |}; b_readers := rs |} ->
  hi <= List.length (f_in (m_pub m)) + n -> f_pc (m_pub m) = FPoll -> f_ctl (m_pub m) = SIdle -> f_out (m_pub m) = [] -> ~ List.In ["last"] (f_in (m_pub m)) ->
  exists ls' m', brun listener lo hi lo' hi' b0 (ls ++ ls') {| b_sys := {| d_pc := MInShell (Ret tt); d_mem := m' |}; b_readers := rs |} /\ List.In ["last"] (spoken ls') /\
    m_shellq m' = m_shellq m /\ m_ctlq m' = m_ctlq m /\ m_stop m' = m_stop m /\ f_pc (m_pub m') = FPoll /\ f_ctl (m_pub m') = SIdle /\ f_out (m_pub m') = [] /\ ~ List.In ["last"] (f_in (m_pub m')).
Proof.
  intros L. induction n as [|n IH]; intros ls rs m R G P1 P2 P3 P4.
  - set (m1 := on_event (EPublish SHELL no_pub ["last"]) (set_k (fst (kstep (KEmit (EPublish SHELL no_pub ["last"])) (m_k m))) m)).
    exists [BMain (Emitted (EPublish SHELL no_pub ["last"])) false], (set_pub (m_pub m) m1). split; [|cbn; auto 12].
    econstructor; [exact R|]. assert (M : main_step listener {| d_pc := MInShell (@chatter U 0); d_mem := m |} (Emitted (EPublish SHELL no_pub ["last"])) {| d_pc := MInShell (Ret tt); d_mem := m1 |}).
    { apply (ms_shell_op listener m m1 (KEmit (EPublish SHELL no_pub ["last"])) (fun _ => Ret tt) tt). reflexivity. }
    refine (b_main listener lo hi lo' hi' _ _ _ rs false M _). cbn. unfold waiting. cbn. lia.
  - set (e := EPublish SHELL no_pub ["more"]). set (m1 := on_event e (set_k (fst (kstep (KEmit e) (m_k m))) m)).
    assert (M : main_step listener {| d_pc := MInShell (@chatter U (S n)); d_mem := m |} (Emitted e) {| d_pc := MInShell (chatter n); d_mem := m1 |}).
    { apply (ms_shell_op listener m m1 (KEmit e) (fun _ => chatter n) tt). reflexivity. }
    destruct (Nat.ltb_spec (List.length (f_in (m_pub m))) hi) as [Lt|Ge].
    + destruct (IH (ls ++ [BMain (Emitted e) true])%list rs m1) as (ls' & m' & R' & A); cbn; auto.
      * econstructor; [exact R|]. exact (b_main listener lo hi lo' hi' _ _ _ rs true M Lt).
      * rewrite app_length. cbn. lia.
      * rewrite in_app_iff. intros [I|[I|[]]]; [auto|discriminate I].
      * rewrite <- app_assoc in R'. exists (BMain (Emitted e) true :: ls')%list, m'. split; [exact R'|]. destruct A as (A & B). split; [right; exact A|exact B].
    + destruct (IH (ls ++ [BMain (Emitted e) false])%list rs (set_pub (m_pub m) m1)) as (ls' & m' & R' & A); cbn; auto.
      * econstructor; [exact R|]. refine (b_main listener lo hi lo' hi' _ _ _ rs false M _). cbn. unfold waiting. cbn. lia.
      * lia.
      * rewrite <- app_assoc in R'. exists (BMain (Emitted e) false :: ls')%list, m'. split; [exact R'|]. destruct A as (A & B). split; [right; exact A|exact B].
Qed.
Lemma bdrain {U} (listener : channel -> frames -> kprog U unit) lo hi lo' hi' b0 f g : fsteps f g -> forall ls pc m, alive pc -> m_pub m = f ->
  brun listener lo hi lo' hi' b0 ls {| b_sys := {| d_pc := pc; d_mem := m |}; b_readers := [] |} ->
  exists ls', brun listener lo hi lo' hi' b0 (ls ++ ls') {| b_sys := {| d_pc := pc; d_mem := set_pub g m |}; b_readers := [] |} /\ spoken ls' = [].
Proof.
  induction 1 as [f|f g h N S IH]; intros ls pc m A E R.
  - exists []. rewrite app_nil_r. split; [|reflexivity]. rewrite <- E. destruct m. exact R.
  - subst f. assert (X : exists l, bstep listener lo hi lo' hi' {| b_sys := {| d_pc := pc; d_mem := m |}; b_readers := [] |} l {| b_sys := {| d_pc := pc; d_mem := set_pub g m |}; b_readers := [] |} /\ spoken [l] = []).
    { destruct (sending (m_pub m)) as [w|] eqn:Sd; [exists (BSend w)|exists BPub]; (split; [constructor; auto|reflexivity]). }
    destruct X as (l & St & Sp). destruct (IH (ls ++ [l])%list pc (set_pub g m) A eq_refl) as (ls' & R' & Q); [econstructor; eauto|].
    exists (l :: ls')%list. rewrite <- app_assoc in R'. split; [exact R'|]. change (l :: ls')%list with ([l] ++ ls')%list. now rewrite spoken_app, Sp, Q.
Qed.
Theorem C104_lost_refuted : forall U (k : kstate U) lo hi lo' hi', lo <= hi -> exists (listener : channel -> frames -> kprog U unit) start ls b w,
  brun listener lo hi lo' hi' (b_init k start) ls b /\ d_pc (b_sys b) = MPoll /\ m_shellq (d_mem (b_sys b)) = [] /\ m_ctlq (d_mem (b_sys b)) = [] /\ fnext (fpub b) = None /\ f_pc (fpub b) = FPoll /\
  List.In w (spoken ls) /\ ~ List.In w (sent_on ls).
Proof.
  intros U k lo hi lo' hi' L. set (listener := fun (_ : channel) (_ : frames) => @chatter U hi). exists listener, ["start"].
  set (b0 := b_init k ["start"]).
  set (m0 := d_mem (b_sys b0)). set (m1 := set_shellq [["go"]] m0).
  assert (R : exists ls, brun listener lo hi lo' hi' b0 ls {| b_sys := {| d_pc := MInShell (chatter hi); d_mem := set_shellq [] m1 |}; b_readers := [] |} /\ spoken ls = []).
  { exists (((((([] ++ [BEnv (Arrive SHELL ["go"])]) ++ [BMain Tau true]) ++ [BMain (Poll false true) true]) ++ [BMain Tau true]) ++ [BMain (Hand SHELL ["go"]) true]))%list. split; [|reflexivity].
    econstructor; [econstructor; [econstructor; [econstructor; [econstructor; [constructor|]|]|]|]|].
    - apply (b_env listener lo hi lo' hi' (b_sys b0) (Arrive SHELL ["go"]) {| d_pc := MTest; d_mem := m1 |}); [|exact I]. exact (ds_shell listener MTest m0 ["go"]).
    - exact (b_main listener lo hi lo' hi' _ _ _ [] true (ms_go listener m1 eq_refl) eq_refl).
    - refine (b_main listener lo hi lo' hi' _ _ _ [] true (ms_poll listener m1 _) eq_refl). right. discriminate.
    - exact (b_main listener lo hi lo' hi' _ _ _ [] true (ms_shell listener m1 true) eq_refl).
    - exact (b_main listener lo hi lo' hi' _ _ _ [] true (ms_recv_shell listener m1 ["go"] [] eq_refl) eq_refl). }
  destruct R as (l1 & R & S1). destruct (chat listener lo hi lo' hi' b0 hi L l1 [] _ R) as (l2 & m2 & R2 & S2 & Q1 & Q2 & Q3 & P1 & P2 & P3 & P4); try reflexivity; [cbn; lia|cbn; intros [Z|[]]; discriminate Z|].
  assert (R3 : brun listener lo hi lo' hi' b0 (((l1 ++ l2) ++ [BMain Tau true]) ++ [BMain Tau true]) {| b_sys := {| d_pc := MPoll; d_mem := m2 |}; b_readers := [] |}).
  { econstructor; [econstructor; [exact R2|]|].
    - exact (b_main listener lo hi lo' hi' _ _ _ [] true (ms_shell_end listener m2 tt) eq_refl).
    - exact (b_main listener lo hi lo' hi' _ _ _ [] true (ms_go listener m2 Q3) eq_refl). }
  destruct (f_drains (m_pub m2)) as (g & G1 & G2 & G3 & G4 & G5).
  { intros c. rewrite P1. discriminate. }
  { unfold f_running. rewrite P1, P2. auto. }
  destruct (bdrain listener lo hi lo' hi' b0 _ _ G1 _ MPoll m2 I eq_refl R3) as (l3 & R4 & S3).
  eexists _, _, ["last"]. split; [exact R4|]. cbn. split; [reflexivity|]. do 4 (split; [assumption|]). split.
  - rewrite !spoken_app, !in_app_iff. auto.
  - destruct (brun_pub listener lo hi lo' hi' k ["start"] _ _ R4) as (O & _). unfold fpub in O. cbn in O. rewrite <- O, G5. unfold f_all, in_flight. rewrite P1, P3. exact P4.
Qed.
Print Assumptions C104_lost_refuted.
