(** C105. *)
From Verif Require Import Base BaseFacts Json JsonText Utf8 Auth Message WireSpec History Comm Tree Kernel KernelSpec KernelDemo
  Server ServerSpec ServerProofs ServerExec ServerLemmas ServerDemo Split SplitSpec Startup StartupSpec Join JoinProofs Pipes PipesSpec PipesProofs PropsStartup.

(** ** C105 *)
(** What the publisher thread sends is made of publications of the two channels, those of each in the order in which they were
    published, none twice, and none from before the subscription. *)
Theorem C105_order : forall U v (listener : channel -> frames -> kprog U unit) internal start lo hi k ls p,
  prun v listener internal start lo hi (p_init start k) ls p ->
  exists a b, shuffle a b (out ls) /\ within a (subscribed v SHELL ls) /\ within b (subscribed v CONTROL ls) /\
    (forall c, within (subscribed v c ls) (published v c ls)) /\ f_out (m_pub (y_mem (z_sys (p_z p)))) = out ls.
Proof.
  intros U v listener internal start lo hi k ls p R. destruct (passing_run _ _ _ _ _ _ _ _ _ R) as (S & _ & W & _).
  destruct (shuffle_prefix _ _ _ _ S) as (a1 & a2 & b1 & b2 & A & B & S'). exists a1, b1. split; [exact S'|].
  pose proof (W SHELL) as WS. pose proof (W CONTROL) as WC. rewrite A, <- app_assoc in WS. rewrite B, <- app_assoc in WC.
  split; [exact (within_prefix _ _ _ WS)|]. split; [exact (within_prefix _ _ _ WC)|]. split; [intros c; apply within_published|]. exact (out_run _ _ _ _ _ _ _ _ _ R).
Qed.
Print Assumptions C105_order.
(** As long as fewer than [lo] messages are under way nothing is lost: of each channel, what was published since the subscription
    has been sent up to some point; all of it when the publisher thread waits and the pipes are empty. *)
Theorem C105_kept : forall U v (listener : channel -> frames -> kprog U unit) internal start lo hi k ls p,
  prun v listener internal start lo hi (p_init start k) ls p -> keeps_up v lo ls ->
  exists a b a' b', shuffle a b (out ls) /\ subscribed v SHELL ls = (a ++ a')%list /\ subscribed v CONTROL ls = (b ++ b')%list /\
    (f_pc (m_pub (y_mem (z_sys (p_z p)))) = FPoll -> a' = p_pipes p SHELL /\ b' = p_pipes p CONTROL).
Proof.
  intros U v listener internal start lo hi k ls p R K. destruct (passing_run _ _ _ _ _ _ _ _ _ R) as (S & _ & _ & W). specialize (W K).
  destruct (held (f_pc (z_pub_of (p_z p)))) as [|h r] eqn:H.
  - rewrite app_nil_r in S. exists (took SHELL ls), (took CONTROL ls), (p_pipes p SHELL), (p_pipes p CONTROL). rewrite <- !W. auto.
  - destruct (shuffle_prefix _ _ _ _ S) as (a1 & a2 & b1 & b2 & A & B & S'). exists a1, b1, (a2 ++ p_pipes p SHELL)%list, (b2 ++ p_pipes p CONTROL)%list.
    rewrite <- !W, A, B, <- !app_assoc. split; [exact S'|]. split; [reflexivity|]. split; [reflexivity|]. intros F. unfold z_pub_of in H. rewrite F in H. discriminate.
Qed.
Print Assumptions C105_kept.
(** A publisher thread that exists and is not asked to stop empties the pipes, whatever the others do meanwhile: its own steps suffice. *)
Theorem C105_flush : forall U v (listener : channel -> frames -> kprog U unit) internal start lo hi k ls p,
  prun v listener internal start lo hi (p_init start k) ls p ->
  y_end (z_sys (p_z p)) = None -> 0 < boot_rank (z_boot (p_z p)) ->
  let f := m_pub (y_mem (z_sys (p_z p))) in asked (f_ctl f) = false -> (f_pc f = FPoll \/ f_pc f = FRecv false \/ exists w, f_pc f = FSend w false) ->
  exists ls' p', prun v listener internal start lo hi p ls' p' /\ forallb of_pub_thread ls' = true /\
    (forall c, p_pipes p' c = []) /\ f_pc (m_pub (y_mem (z_sys (p_z p')))) = FPoll.
Proof.
  intros U v listener internal start lo hi k ls p R E B f A P. apply (flush v listener internal start lo hi p); auto; [eapply pub_ok_run; eauto|].
  unfold z_pub_of. fold f. destruct P as [->|[->|(w & ->)]]; auto.
Qed.
Print Assumptions C105_flush.
(** The other threads do what they do in Startup.v, with one pipe that takes everything: for every run there is one with the same
    steps of theirs, which leads to the same state. *)
Theorem C105_same : forall U v (listener : channel -> frames -> kprog U unit) internal start lo hi k ls p,
  prun v listener internal start lo hi (p_init start k) ls p ->
  exists ls' z, zrun v listener internal start (z_init start k) ls' z /\ filter not_publisher ls' = others ls /\ same_apart (p_z p) z.
Proof.
  intros U v listener internal start lo hi k ls p R. destruct (others_sim _ _ _ _ _ _ _ _ _ R) as (g & l2 & Z & (L & _) & V). exists l2, (z_with g (p_z p)).
  split; [exact Z|]. split; [exact V|]. destruct (p_z p) as [b c [sh ct m st e]]. unfold same_apart. cbn in *. auto 20.
Qed.
Print Assumptions C105_same.
(** A publication never makes a thread wait: what the other threads can do they can do whatever the pipes contain. *)
Theorem C105_goes_on : forall U v (listener : channel -> frames -> kprog U unit) internal start lo hi p l z, lo <= hi ->
  zstep v listener internal start (p_z p) l z -> not_publisher l = true ->
  exists t p', pstep v listener internal start lo hi p (PStep l t) p' /\ z_boot (p_z p') = z_boot z /\ y_sh (z_sys (p_z p')) = y_sh (z_sys z) /\
    y_ct (z_sys (p_z p')) = y_ct (z_sys z) /\ m_k (y_mem (z_sys (p_z p'))) = m_k (y_mem (z_sys z)).
Proof.
  intros U v listener internal start lo hi [z0 pp j] l z L Z N. cbn in Z. destruct (given_by v l) as [[c w]|] eqn:G.
  - destruct (j c) eqn:J; [destruct (Nat.lt_ge_cases (List.length (pp c)) hi) as [B|B]|].
    + exists true. eexists. split; [eapply p_taken; eauto|]. auto.
    + exists false. eexists. split; [eapply p_dropped; eauto; right; lia|]. auto.
    + exists false. eexists. split; [eapply p_dropped; eauto|]. auto.
  - exists true. eexists. split; [apply p_step; eauto; rewrite not_given_of, N; reflexivity|]. auto.
Qed.
Print Assumptions C105_goes_on.

(** ** Executed runs *)
Section Exec.
  Context {U : Type} (v : variant) (listener : channel -> frames -> kprog U unit) (internal : frames -> kprog U frames) (start : frames) (room : nat).
  Inductive pchoice := PG (c : zchoice) | PGJoin (c : channel) | PGPub (c : channel).
  Definition other_chan (c : channel) : channel := match c with SHELL => CONTROL | CONTROL => SHELL end.
  Definition pubf (c : channel) (f : fwd) (pp : pipes) : option (plabel * fwd * pipes) :=
    let at_ o k pc := {| f_in := f_in f; f_out := o; f_ctl := k; f_pc := pc |} in
    match f_pc f with
    | FPoll => match pp SHELL, pp CONTROL with
               | [], [] => if asked (f_ctl f) then Some (PTau, at_ (f_out f) (f_ctl f) FCtl, pp) else None
               | _, _ => Some (PTau, at_ (f_out f) (f_ctl f) (FRecv (asked (f_ctl f))), pp)
               end
    | FRecv b => match pp c with
                 | w :: r => Some (PTake c w, at_ (f_out f) (f_ctl f) (FSend w b), set_pipe c r pp)
                 | [] => match pp (other_chan c) with
                         | w :: r => Some (PTake (other_chan c) w, at_ (f_out f) (f_ctl f) (FSend w b), set_pipe (other_chan c) r pp)
                         | [] => None
                         end
                 end
    | FSend w b => Some (PSend w, at_ (f_out f ++ [w])%list (f_ctl f) (if b then FCtl else FPoll), pp)
    | FCtl => match f_ctl f with SAsked w => Some (PTau, at_ (f_out f) (SAnswered w) FDone, pp) | _ => None end
    | FDone => None
    end.
  Lemma pubf_sound c f pp l f' pp' : pubf c f pp = Some (l, f', pp') -> pubstep f pp l f' pp'.
  Proof.
    destruct f as [q o k pc]. unfold pubf. cbn [f_in f_out f_ctl f_pc]. destruct pc as [|b|w b| |].
    - destruct (pp SHELL) as [|x xs] eqn:E1; [destruct (pp CONTROL) as [|x xs] eqn:E2|].
      + destruct (asked k) eqn:A; [|discriminate]. intros [= <- <- <-]. apply pu_ctl; auto. now intros [].
      + intros [= <- <- <-]. apply (pu_poll q o k pp CONTROL). congruence.
      + intros [= <- <- <-]. apply (pu_poll q o k pp SHELL). congruence.
    - destruct (pp c) as [|w r] eqn:E1; [destruct (pp (other_chan c)) as [|w r] eqn:E2; [discriminate|]|]; intros [= <- <- <-]; now apply pu_take.
    - intros [= <- <- <-]. apply pu_send.
    - destruct k; try discriminate. intros [= <- <- <-]. apply pu_stop.
    - discriminate.
  Qed.
  Definition pnext (c : pchoice) (p : psys U) : option (plabel * psys U) :=
    let z := p_z p in
    match c with
    | PG c =>
        match znext v listener internal start c z with
        | Some (l, z') =>
            if of_publisher l then None else
            match given_by v l with
            | None => Some (PStep l true, {| p_z := z'; p_pipes := p_pipes p; p_joined := p_joined p |})
            | Some (c, w) =>
                if p_joined p c
                then if Nat.ltb (List.length (p_pipes p c)) room
                     then Some (PStep l true, {| p_z := z_with (z_pub_of z) z'; p_pipes := set_pipe c (p_pipes p c ++ [w]) (p_pipes p); p_joined := p_joined p |})
                     else None
                else Some (PStep l false, {| p_z := z_with (z_pub_of z) z'; p_pipes := p_pipes p; p_joined := p_joined p |})
            end
        | None => None
        end
    | PGJoin c =>
        match y_end (z_sys z) with
        | None => if ((chan_eqb c CONTROL || Nat.ltb 0 (boot_rank (z_boot z))) && negb (p_joined p c))%bool
                  then Some (PJoin c, {| p_z := z; p_pipes := p_pipes p; p_joined := fun c' => if chan_eqb c c' then true else p_joined p c' |}) else None
        | Some _ => None
        end
    | PGPub c =>
        match y_end (z_sys z) with
        | None => if Nat.ltb 0 (boot_rank (z_boot z))
                  then match pubf c (z_pub_of z) (p_pipes p) with
                       | Some (l, f, pp) => Some (l, {| p_z := z_with f z; p_pipes := pp; p_joined := p_joined p |})
                       | None => None
                       end
                  else None
        | Some _ => None
        end
    end.
  Lemma pnext_sound lo hi c p l p' : room <= hi -> pnext c p = Some (l, p') -> pstep v listener internal start lo hi p l p'.
  Proof.
    intros H. destruct p as [z pp j]. destruct c as [c|c|c]; cbn [pnext p_z p_pipes p_joined].
    - destruct (znext v listener internal start c z) as [[l0 z']|] eqn:E; [|discriminate]. apply znext_sound in E.
      destruct (of_publisher l0) eqn:O; [discriminate|]. destruct (given_by v l0) as [[c0 w]|] eqn:G.
      + destruct (j c0) eqn:J.
        * destruct (Nat.ltb_spec (List.length (pp c0)) room); [|discriminate]. intros [= <- <-]. eapply p_taken; eauto. lia.
        * intros [= <- <-]. eapply p_dropped; eauto.
      + intros [= <- <-]. now apply p_step.
    - destruct (y_end (z_sys z)) eqn:E; [discriminate|]. destruct (chan_eqb c CONTROL || Nat.ltb 0 (boot_rank (z_boot z)))%bool eqn:B; [|discriminate]. cbn [andb].
      destruct (j c) eqn:J; [discriminate|]. intros [= <- <-]. apply p_join; auto. intros ->. cbn in B. now apply Nat.ltb_lt.
    - destruct (y_end (z_sys z)) eqn:E; [discriminate|]. destruct (Nat.ltb_spec 0 (boot_rank (z_boot z))); [|discriminate].
      destruct (pubf c (z_pub_of z) pp) as [[[l0 f] pp']|] eqn:P; [|discriminate]. intros [= <- <-]. apply p_pub; auto. now apply pubf_sound in P.
  Qed.
  Fixpoint pmany (c : pchoice) (n : nat) (ls : list plabel) (p : psys U) : list plabel * psys U :=
    match n with
    | 0 => (ls, p)
    | S n => match pnext c p with Some (l, p') => pmany c n (ls ++ [l]) p' | None => (ls, p) end
    end.
  Fixpoint pexec (cs : list (pchoice * nat)) (ls : list plabel) (p : psys U) : list plabel * psys U :=
    match cs with [] => (ls, p) | (c, n) :: r => let (ls', p') := pmany c n ls p in pexec r ls' p' end.
  Lemma pmany_sound lo hi c n p0 ls p : room <= hi -> prun v listener internal start lo hi p0 ls p ->
    prun v listener internal start lo hi p0 (fst (pmany c n ls p)) (snd (pmany c n ls p)).
  Proof.
    intros B. revert ls p. induction n as [|n IH]; intros ls p H; cbn; auto. destruct (pnext c p) as [[l p']|] eqn:E; auto.
    apply IH. econstructor; eauto. eapply pnext_sound; eauto.
  Qed.
  Lemma pexec_sound lo hi cs p0 ls p : room <= hi -> prun v listener internal start lo hi p0 ls p ->
    prun v listener internal start lo hi p0 (fst (pexec cs ls p)) (snd (pexec cs ls p)).
  Proof.
    intros B. revert ls p. induction cs as [|[c n] cs IH]; intros ls p H; cbn; auto.
    pose proof (pmany_sound lo hi c n p0 ls p B H) as D. destruct (pmany c n ls p) as [ls' p']. now apply IH.
  Qed.
End Exec.
Definition pipe_run (v : variant) cs := pexec v slisten sintern ["start"] 20 cs [] (p_init ["start"] demo_start).
Lemma pipe_run_ok v cs lo hi : 20 <= hi ->
  prun v (fun c w => dispatch sdemo w c) (dispatch_internal sdemo) ["start"] lo hi (p_init ["start"] demo_start) (fst (pipe_run v cs)) (snd (pipe_run v cs)).
Proof. intros B. apply pexec_sound; [exact B|constructor]. Qed.
(** Everything is connected before the start message. *)
Definition connected : list (pchoice * nat) := [(PGJoin CONTROL, 1); (PG ZGBoot, 1); (PGJoin SHELL, 1); (PG ZGBoot, 3); (PG ZGBegin, 1)].
Definition keeps_upf (v : variant) (n : nat) (ls : list plabel) : bool :=
  forallb (fun i => let l := firstn i ls in Nat.ltb (List.length (subscribed v SHELL l) + List.length (subscribed v CONTROL l)) (List.length (out l) + n)) (seq 0 (S (List.length ls))).
Lemma keeps_upf_ok v n ls : keeps_upf v n ls = true -> keeps_up v n ls.
Proof.
  intros H l1 l2 E. unfold keeps_upf in H. rewrite forallb_forall in H. specialize (H (List.length l1)). cbv zeta in H.
  replace (firstn (List.length l1) ls) with l1 in H by (rewrite E, firstn_app, Nat.sub_diag, firstn_O, app_nil_r, firstn_all; reflexivity).
  apply Nat.ltb_lt. apply H. apply in_seq. rewrite E, app_length. lia.
Qed.
Lemma keeps_up_more v n n' ls : n <= n' -> keeps_up v n ls -> keeps_up v n' ls.
Proof. intros L K l1 l2 E. pose proof (K l1 l2 E). lia. Qed.
Definition frames_dec : forall a b : frames, {a = b} + {a <> b} := list_eq_dec string_dec.
(** Requests on both channels; what is sent is a shuffle of the two. *)
Definition both : list (pchoice * nat) :=
  connected ++ [(PG (ZG (YIn SHELL exec1)), 1); (PG (ZG (YIn CONTROL info)), 1); (PG (ZG (YGo TControl)), 8); (PG (ZG (YGo TShell)), 40); (PGPub SHELL, 10); (PG (ZG (YGo TControl)), 500);
                (PGPub CONTROL, 10); (PG (ZG (YGo TShell)), 500); (PGPub SHELL, 100)].
Example C105_ex : forall v lo hi, 20 <= lo -> 20 <= hi -> let r := pipe_run v both in
  prun v (fun c w => dispatch sdemo w c) (dispatch_internal sdemo) ["start"] lo hi (p_init ["start"] demo_start) (fst r) (snd r) /\ keeps_up v lo (fst r) /\
  (forall c, p_pipes (snd r) c = []) /\ f_pc (m_pub (y_mem (z_sys (p_z (snd r))))) = FPoll /\
  List.map kind (out (fst r)) =
    let t ty := Some (Some ty) in let start := None in
    match v with
    | ControlMain => [t "status"; t "execute_input"; t "stream"; start; t "status"; t "status"; t "execute_result"; t "status"]
    | ShellMain => [start; t "status"; t "execute_input"; t "status"; t "status"; t "stream"; t "execute_result"; t "status"]
    end.
Proof.
  intros v lo hi L H r. split; [now apply pipe_run_ok|]. split; [apply (keeps_up_more v 20 lo); auto; apply keeps_upf_ok; destruct v; vm_compute; reflexivity|].
  split; [intros []; destruct v; vm_compute; reflexivity|]. split; destruct v; vm_compute; reflexivity.
Qed.

(** Nothing is lost, and yet what a thread publishes before the idle status of a request may be sent after it, when it goes through
    the other socket. A cell on the control channel: its output is published on the shell channel (src/xkernel_core.cpp:69-79,402), its status on the
    control channel (src/xkernel_core.cpp:226,257). *)
Definition said_by (c : channel) (ls : list plabel) : list frames :=
  flat_map (fun l => match l with PStep (ZStep (YEvent c' (EPublish _ _ w))) _ => if chan_eqb c c' then [w] else [] | _ => [] end) ls.
Definition before (x y : frames) (l : list frames) : Prop := exists a b c, l = (a ++ x :: b ++ y :: c)%list.
Lemma before_nth x y l n m : nth_error l n = Some x -> nth_error l m = Some y -> n < m -> before x y l.
Proof.
  intros X Y L. apply nth_error_split in X as (a & r & -> & N). exists a.
  rewrite nth_error_app2 in Y by lia. replace (m - List.length a) with (S (m - List.length a - 1)) in Y by lia. cbn in Y.
  apply nth_error_split in Y as (b & c & -> & _). exists b, c. reflexivity.
Qed.
Lemma nodup_ok (l : list frames) : nodup frames_dec l = l -> NoDup l.
Proof. intros <-. apply NoDup_nodup. Qed.
Definition is_idle (p : xpub) : bool :=
  match m_content (m_pbase p) with JObj [(k, JStr s)] => String.eqb k "execution_state" && String.eqb s "idle" | _ => false end.
Lemma is_idle_ok p : is_idle p = true -> m_content (m_pbase p) = JObj [("execution_state", JStr "idle")].
Proof.
  unfold is_idle. destruct (m_content (m_pbase p)) as [| | | | | |l]; try discriminate. destruct l as [|[k j] [|]]; try discriminate; destruct j; try discriminate.
  intros H. apply andb_true_iff in H as [A B]. apply String.eqb_eq in A, B. now subst.
Qed.
Definition idle_step (c : channel) (i : frames) (l : plabel) : bool :=
  match l with
  | PStep (ZStep (YEvent c' (EPublish c'' m w))) true => (chan_eqb c c' && chan_eqb c c'' && is_idle m && if frames_dec w i then true else false)%bool
  | _ => false
  end.
Lemma idle_step_in c i ls : existsb (idle_step c i) ls = true ->
  exists m, In (PStep (ZStep (YEvent c (EPublish c m i))) true) ls /\ m_content (m_pbase m) = JObj [("execution_state", JStr "idle")].
Proof.
  intros H. apply existsb_exists in H as (l & I & H). unfold idle_step in H. destruct l as [[| | |l] [|]| | | |]; try discriminate; destruct l as [| | | |c' e| | | | | |]; try discriminate; destruct e as [c'' m w| | | | | | | |]; try discriminate.
  apply andb_true_iff in H as [H D]. apply andb_true_iff in H as [H J]. apply andb_true_iff in H as [A B].
  apply chan_eqb_ok in A, B. subst c' c''. destruct (frames_dec w i) as [->|]; [|discriminate]. exists m. split; [exact I|now apply is_idle_ok].
Qed.
Definition late (c : channel) : list (pchoice * nat) :=
  connected ++ [(PG (ZG (YIn c (match c with CONTROL => exec1 | SHELL => shutdown end))), 1); (PG (ZG (YGo (chan_tid c))), 100); (PGPub c, 100)].
Theorem C105_idle_refuted : forall v c lo hi, 20 <= lo -> 20 <= hi -> exists U (E : env U) k start ls p o i m,
  prun v (fun c w => dispatch E w c) (dispatch_internal E) start lo hi (p_init start k) ls p /\ keeps_up v lo ls /\ NoDup (out ls) /\
  In (PStep (ZStep (YEvent c (EPublish c m i))) true) ls /\ m_content (m_pbase m) = JObj [("execution_state", JStr "idle")] /\
  before o i (said_by c ls) /\ before i o (out ls).
Proof.
  intros v c lo hi L H. set (r := pipe_run v (late c)). set (o := nth 1 (said_by c (fst r)) []). set (i := List.last (said_by c (fst r)) []).
  destruct (idle_step_in c i (fst r)) as (m & I & C); [destruct v, c; vm_compute; reflexivity|].
  exists U0, sdemo, demo_start, ["start"], (fst r), (snd r), o, i, m.
  split; [now apply pipe_run_ok|]. split; [apply (keeps_up_more v 20 lo); auto; apply keeps_upf_ok; destruct v, c; vm_compute; reflexivity|].
  split; [apply nodup_ok; destruct v, c; vm_compute; reflexivity|]. split; [exact I|]. split; [exact C|].
  set (n := List.length (said_by c (fst r)) - 1).
  split; [apply (before_nth _ _ _ 1 n); destruct v, c; vm_compute; try reflexivity; lia|].
  set (pos := fun x => List.length ((fix go l := match l with [] => [] | y :: t => if frames_dec y x then [] else y :: go t end) (out (fst r)))).
  apply (before_nth _ _ _ (pos i) (pos o)); destruct v, c; vm_compute; try reflexivity; lia.
Qed.
Print Assumptions C105_idle_refuted.
(** The start message of the control main server is sent: the socket of xcontrol has its subscription from the beginning. *)
Theorem C105_start : forall U (listener : channel -> frames -> kprog U unit) internal start lo hi k ls p t,
  prun ControlMain listener internal start lo hi (p_init start k) (PJoin CONTROL :: ls) p -> keeps_up ControlMain lo (PJoin CONTROL :: ls) ->
  In (PStep (ZStart start) t) ls -> p_pipes p CONTROL = [] -> f_pc (m_pub (y_mem (z_sys (p_z p)))) = FPoll -> In start (out ls).
Proof.
  intros U listener internal start lo hi k ls p t R K I Q F. destruct (C105_kept _ _ _ _ _ _ _ _ _ _ R K) as (a & b & a' & b' & S & _ & B & P).
  destruct (P F) as (_ & P2). rewrite P2, Q, app_nil_r in B. cbn in B. change (out (PJoin CONTROL :: ls)) with (out ls) in S.
  assert (M : forall a b l, shuffle a b l -> forall x, In x b -> In x l) by (clear; induction 1; cbn; intuition).
  apply (M _ _ _ S). rewrite <- B. apply in_flat_map. exists (PStep (ZStart start) t). split; [exact I|now left].
Qed.
Print Assumptions C105_start.
Definition both_run := pipe_run ControlMain both.
Lemma both_head : fst both_run = PJoin CONTROL :: tl (fst both_run).
Proof. vm_compute. reflexivity. Qed.
Lemma both_start : In (PStep (ZStart ["start"]) true) (tl (fst both_run)).
Proof.
  assert (X : existsb (fun l => match l with PStep (ZStart w) true => if frames_dec w ["start"] then true else false | _ => false end) (tl (fst both_run)) = true) by (vm_compute; reflexivity).
  apply existsb_exists in X as (l & I & X). destruct l as [[|w| |] [|]| | | |]; try discriminate X. destruct (frames_dec w ["start"]) as [->|]; [exact I|discriminate X].
Qed.
Example C105_start_ex : forall lo hi, 20 <= lo -> 20 <= hi -> exists ls p t,
  prun ControlMain (fun c w => dispatch sdemo w c) (dispatch_internal sdemo) ["start"] lo hi (p_init ["start"] demo_start) (PJoin CONTROL :: ls) p /\
  keeps_up ControlMain lo (PJoin CONTROL :: ls) /\ In (PStep (ZStart ["start"]) t) ls /\ p_pipes p CONTROL = [] /\ f_pc (m_pub (y_mem (z_sys (p_z p)))) = FPoll.
Proof.
  intros lo hi L H. destruct (C105_ex ControlMain lo hi L H) as (R & K & P & F & _). exists (tl (fst both_run)), (snd both_run), true.
  rewrite <- both_head. split; [exact R|]. split; [exact K|]. split; [exact both_start|]. split; [exact (P CONTROL)|exact F].
Qed.
(** That of the shell main server is lost when it is published before the subscription has reached the socket of xshell. *)
Definition unheard : list (pchoice * nat) :=
  [(PGJoin CONTROL, 1); (PG ZGBoot, 4); (PGJoin SHELL, 1); (PG ZGBegin, 1); (PG (ZG (YIn SHELL exec1)), 1); (PG (ZG (YGo TShell)), 500); (PGPub SHELL, 100)].
Definition unheard_run := pipe_run ShellMain unheard.
Lemma unheard_head : fst unheard_run = PJoin CONTROL :: tl (fst unheard_run).
Proof. vm_compute. reflexivity. Qed.
Theorem C105_start_refuted : forall lo hi, 20 <= lo -> 20 <= hi -> exists U (E : env U) k start ls p,
  prun ShellMain (fun c w => dispatch E w c) (dispatch_internal E) start lo hi (p_init start k) (PJoin CONTROL :: ls) p /\ keeps_up ShellMain lo (PJoin CONTROL :: ls) /\
  In (PStep (ZStart start) false) ls /\ (forall c, p_pipes p c = []) /\ f_pc (m_pub (y_mem (z_sys (p_z p)))) = FPoll /\ out ls <> [] /\ ~ In start (out ls).
Proof.
  intros lo hi L H. exists U0, sdemo, demo_start, ["start"], (tl (fst unheard_run)), (snd unheard_run). rewrite <- unheard_head.
  split; [unfold unheard_run; now apply pipe_run_ok|]. split; [apply (keeps_up_more ShellMain 20 lo); auto; apply keeps_upf_ok; vm_compute; reflexivity|].
  split; [vm_compute; auto 10|]. split; [intros []; vm_compute; reflexivity|]. split; [vm_compute; reflexivity|].
  split; [vm_compute; discriminate|]. vm_compute; intuition discriminate.
Qed.
Print Assumptions C105_start_refuted.
