(** Executable schedulers for the servers' machines, used to build concrete runs. *)
From Verif Require Import Base Json Message Comm Tree Kernel Server Split.

Section Exec.
  Context {U : Type}.
  (** One operation; the length asked by [KShellLen] is that of the queue. *)
  Definition mopf (o : kop U) : mem U -> option (mem U * kans o) :=
    match o return mem U -> option (mem U * kans o) with
    | KShellPop => fun m => match m_shellq m with [] => Some (m, None) | w :: q => Some (set_shellq q m, Some w) end
    | KShellLen => fun m => Some (m, List.length (m_shellq m))
    | KStdin => fun m =>
        if Nat.ltb (k_stdin (m_k m)) (m_stdin m)
        then Some (set_k (fst (kstep KStdin (m_k m))) m, snd (kstep KStdin (m_k m))) else None
    | KCall _ => fun _ => None
    | KEmit e => fun m => Some (on_event e (set_k (fst (kstep (KEmit e) (m_k m))) m), tt)
    | o => fun m => Some (set_k (fst (kstep o (m_k m))) m, snd (kstep o (m_k m)))
    end.
  Lemma mopf_sound o m m' x : mopf o m = Some (m', x) -> mop o m m' x.
  Proof.
    destruct o; cbn [mopf mop]; try (intros H; injection H as <- <-; auto; fail).
    - destruct (Nat.ltb_spec (k_stdin (m_k m)) (m_stdin m)); [|discriminate]. intros [= <- <-]. auto.
    - destruct (m_shellq m); intros [= <- <-]; auto.
    - discriminate.
  Qed.

  (** ** Default server *)
  Section Default.
    Variable listener : channel -> frames -> kprog U unit.
    Definition st (pc : mpc U) (m : mem U) : dsys U := {| d_pc := pc; d_mem := m |}.
    Definition mainf (s : dsys U) : option (label * dsys U) :=
      let m := d_mem s in
      match d_pc s with
      | MTest => Some (Tau, st (if m_stop m then MStop1 else MPoll) m)
      | MPoll =>
          let rc := negb (Nat.eqb (List.length (m_ctlq m)) 0) in
          let rs := negb (Nat.eqb (List.length (m_shellq m)) 0) in
          if (rc || rs)%bool then Some (Poll rc rs, st (if rc then MControl rs else MShell rs) m) else None
      | MControl rs => match m_ctlq m with w :: q => Some (Hand CONTROL w, st (MInControl (listener CONTROL w) rs) (set_ctlq q m)) | [] => None end
      | MInControl (Do o k) rs => match mopf o m with Some (m', x) => Some (op_label o x, st (MInControl (k x) rs) m') | None => None end
      | MInControl (Ret _) rs => Some (Tau, st (MShell rs) m)
      | MInControl _ _ => Some (Tau, st MCrash m)
      | MShell rs => Some (Tau, st (if negb (m_stop m) && rs then MRecvShell else MTest) m)
      | MRecvShell => match m_shellq m with w :: q => Some (Hand SHELL w, st (MInShell (listener SHELL w)) (set_shellq q m)) | [] => None end
      | MInShell (Do o k) => match mopf o m with Some (m', x) => Some (op_label o x, st (MInShell (k x)) m') | None => None end
      | MInShell (Ret _) => Some (Tau, st MTest m)
      | MInShell _ => Some (Tau, st MCrash m)
      | MStop1 => match f_ctl (m_pub m) with SIdle => Some (Tau, st MWait1 (set_pub (f_set (SAsked stop_frames) (m_pub m)) m)) | _ => None end
      | MWait1 => match f_ctl (m_pub m) with SAnswered _ => Some (Tau, st MStop2 (set_pub (f_set SIdle (m_pub m)) m)) | _ => None end
      | MStop2 => match f_ctl (m_hb m) with SIdle => Some (Tau, st MWait2 (set_hb (f_set (SAsked stop_again) (m_hb m)) m)) | _ => None end
      | MWait2 => match f_ctl (m_hb m) with SAnswered _ => Some (Tau, st MExit (set_hb (f_set SIdle (m_hb m)) m)) | _ => None end
      | MExit | MCrash => None
      end.
    Lemma mainf_sound s l s' : mainf s = Some (l, s') -> main_step listener s l s'.
    Proof.
      destruct s as [pc m]. unfold mainf, st. cbn [d_pc d_mem]. destruct pc.
      - intros [= <- <-]. destruct (m_stop m) eqn:E; constructor; auto.
      - destruct (m_ctlq m) as [|a l0] eqn:E1, (m_shellq m) as [|b l1] eqn:E2; cbn [List.length Nat.eqb negb orb]; try discriminate; intros [= <- <-].
        + pose proof (ms_poll listener m) as H. cbv zeta in H. rewrite E1, E2 in H. apply H. right. discriminate.
        + pose proof (ms_poll listener m) as H. cbv zeta in H. rewrite E1, E2 in H. apply H. left. discriminate.
        + pose proof (ms_poll listener m) as H. cbv zeta in H. rewrite E1, E2 in H. apply H. left. discriminate.
      - destruct (m_ctlq m) eqn:E; [discriminate|]. intros [= <- <-]. now constructor.
      - destruct p.
        + intros [= <- <-]. constructor.
        + intros [= <- <-]. constructor. exact I.
        + intros [= <- <-]. constructor. exact I.
        + destruct (mopf o m) as [[m' x]|] eqn:E; [|discriminate]. intros [= <- <-]. constructor. now apply mopf_sound.
      - intros [= <- <-]. constructor.
      - destruct (m_shellq m) eqn:E; [discriminate|]. intros [= <- <-]. now constructor.
      - destruct p.
        + intros [= <- <-]. econstructor.
        + intros [= <- <-]. constructor. exact I.
        + intros [= <- <-]. constructor. exact I.
        + destruct (mopf o m) as [[m' x]|] eqn:E; [|discriminate]. intros [= <- <-]. constructor. now apply mopf_sound.
      - destruct (f_ctl (m_pub m)) eqn:E; try discriminate. intros [= <- <-]. now constructor.
      - destruct (f_ctl (m_pub m)) eqn:E; try discriminate. intros [= <- <-]. econstructor; eauto.
      - destruct (f_ctl (m_hb m)) eqn:E; try discriminate. intros [= <- <-]. now constructor.
      - destruct (f_ctl (m_hb m)) eqn:E; try discriminate. intros [= <- <-]. econstructor; eauto.
      - discriminate.
      - discriminate.
    Qed.
    Inductive choice := GMain | GPub | GHb | GArrive (c : channel) (w : frames) | GBeat (w : frames) | GStdin.
    Definition alivef (pc : mpc U) : bool := match pc with MExit | MCrash => false | _ => true end.
    Definition dnext (c : choice) (s : dsys U) : option (label * dsys U) :=
      let m := d_mem s in
      match c with
      | GMain => mainf s
      | GPub => if alivef (d_pc s) then match fnext (m_pub m) with Some f => Some (Tau, st (d_pc s) (set_pub f m)) | None => None end else None
      | GHb => if alivef (d_pc s) then match fnext (m_hb m) with Some f => Some (Tau, st (d_pc s) (set_hb f m)) | None => None end else None
      | GArrive CONTROL w => Some (Arrive CONTROL w, st (d_pc s) (set_ctlq (m_ctlq m ++ [w]) m))
      | GArrive SHELL w => Some (Arrive SHELL w, st (d_pc s) (set_shellq (m_shellq m ++ [w]) m))
      | GBeat w => Some (HbArrive w, st (d_pc s) (set_hb (f_push w (m_hb m)) m))
      | GStdin => Some (StdinArrive, st (d_pc s) (set_mstdin (S (m_stdin m)) m))
      end.
    Lemma alivef_ok pc : alivef pc = true -> alive pc.
    Proof. destruct pc; cbn; auto; discriminate. Qed.
    Lemma dnext_sound c s l s' : dnext c s = Some (l, s') -> dstep listener s l s'.
    Proof.
      destruct c as [| | |[]|w|]; cbn [dnext].
      - intros H. apply ds_main. now apply mainf_sound.
      - destruct (alivef (d_pc s)) eqn:A; [|discriminate]. apply alivef_ok in A. destruct (fnext (m_pub (d_mem s))) eqn:E; [|discriminate]. intros [= <- <-]. destruct s. now apply ds_pub.
      - destruct (alivef (d_pc s)) eqn:A; [|discriminate]. apply alivef_ok in A. destruct (fnext (m_hb (d_mem s))) eqn:E; [|discriminate]. intros [= <- <-]. destruct s. now apply ds_hb.
      - intros [= <- <-]. destruct s. apply ds_shell.
      - intros [= <- <-]. destruct s. apply ds_control.
      - intros [= <- <-]. destruct s. apply ds_beat.
      - intros [= <- <-]. destruct s. apply ds_stdin.
    Qed.
    (** At most [n] steps of [c], as long as they are possible. *)
    Fixpoint dmany (c : choice) (n : nat) (ls : list label) (s : dsys U) : list label * dsys U :=
      match n with
      | 0 => (ls, s)
      | S n => match dnext c s with Some (l, s') => dmany c n (ls ++ [l]) s' | None => (ls, s) end
      end.
    Fixpoint dexec (cs : list (choice * nat)) (ls : list label) (s : dsys U) : list label * dsys U :=
      match cs with [] => (ls, s) | (c, n) :: r => let (ls', s') := dmany c n ls s in dexec r ls' s' end.
    Lemma dmany_sound c n s0 ls s : drun listener s0 ls s -> drun listener s0 (fst (dmany c n ls s)) (snd (dmany c n ls s)).
    Proof.
      revert ls s. induction n as [|n IH]; intros ls s H; cbn; auto. destruct (dnext c s) as [[l s']|] eqn:E; auto.
      apply IH. econstructor; eauto. eapply dnext_sound; eauto.
    Qed.
    Lemma dexec_sound cs s0 ls s : drun listener s0 ls s -> drun listener s0 (fst (dexec cs ls s)) (snd (dexec cs ls s)).
    Proof.
      revert ls s. induction cs as [|[c n] cs IH]; intros ls s H; cbn; auto.
      pose proof (dmany_sound c n s0 ls s H) as D. destruct (dmany c n ls s) as [ls' s']. now apply IH.
    Qed.
    Lemma dexec_run cs s : drun listener s (fst (dexec cs [] s)) (snd (dexec cs [] s)).
    Proof. apply dexec_sound. constructor. Qed.
  End Default.

  (** ** Split servers *)
  Section Split.
    Variable v : variant.
    Variable listener : channel -> frames -> kprog U unit.
    Variable internal : frames -> kprog U frames.
    Definition gnext (c : channel) {A} (g : going U A) (m : mem U) : option (slabel * going U A * mem U) :=
      match g with
      | Going (Do o k) =>
          match o as o return ((kans o -> kprog U A) -> option (slabel * going U A * mem U)) with
          | KCall w => fun k => match m_call m with SIdle => Some (YCall c w, Calling k, set_call (SAsked w) m) | _ => None end
          | o => fun k => match mopf o m with Some (m', x) => Some (label_of c o x, Going (k x), m') | None => None end
          end k
      | Going _ => None
      | Calling k => match m_call m with SAnswered w => Some (YAnswer c w, Going (k w), set_call SIdle m) | _ => None end
      end.
    Lemma gnext_sound c A (g : going U A) m l g' m' : gnext c g m = Some (l, g', m') -> gstep c g m l g' m'.
    Proof.
      assert (G : forall (o : kop U) (k : kans o -> kprog U A), match mopf o m with Some (m', x) => Some (label_of c o x, Going (k x), m') | None => None end = Some (l, g', m') ->
                    gstep c (Going (Do o k)) m l g' m').
      { intros o k H. destruct (mopf o m) as [[m1 x]|] eqn:E; [|discriminate]. injection H as <- <- <-. constructor. now apply mopf_sound. }
      destruct g as [p|k]; cbn [gnext].
      - destruct p; try discriminate. destruct o; try exact (G _ k). 
        destruct (m_call m) eqn:E; try discriminate. intros [= <- <- <-]. now constructor.
      - destruct (m_call m) eqn:E; try discriminate. intros [= <- <- <-]. now constructor.
    Qed.
    Definition shellf (a : shpc U) (m : mem U) : option (slabel * shpc U * mem U) :=
      match a with
      | SPoll =>
          match m_shellq m with
          | _ :: _ => Some (YTau TShell, SRecv (asked (m_call m)), m)
          | [] => if asked (m_call m) then Some (YTau TShell, SCtl, m) else None
          end
      | SRecv b => match m_shellq m with w :: q => Some (YHand SHELL w, SRun (Going (listener SHELL w)) b, set_shellq q m) | [] => None end
      | SRun (Going (Ret _)) b => Some (YTau TShell, (if b then SCtl else SPoll), m)
      | SRun g b => match gnext SHELL g m with Some (l, g', m') => Some (l, SRun g' b, m') | None => None end
      | SCtl =>
          match m_call m with
          | SAsked (f :: w) =>
              if String.eqb f "stop" then Some (YTau TShell, SOut, set_call (SAnswered (f :: w)) m)
              else Some (YIntern (f :: w), SIntern (Going (internal (f :: w))), m)
          | _ => None
          end
      | SIntern (Going (Ret w)) => Some (YInternEnd w, SPoll, set_call (SAnswered w) m)
      | SIntern g => match gnext SHELL g m with Some (l, g', m') => Some (l, SIntern g', m') | None => None end
      | SOut | SEnd => None
      end.
    Lemma shellf_sound a m l a' m' : shellf a m = Some (l, a', m') -> shell_step listener internal a m l a' m'.
    Proof.
      assert (G : forall g b, match gnext SHELL g m with Some (l, g', m') => Some (l, SRun g' b, m') | None => None end = Some (l, a', m') -> shell_step listener internal (SRun g b) m l a' m').
      { intros g b H. destruct (gnext SHELL g m) as [[[l1 g1] m1]|] eqn:E; [|discriminate]. injection H as <- <- <-. constructor. now apply gnext_sound. }
      assert (G' : forall g, match gnext SHELL g m with Some (l, g', m') => Some (l, SIntern g', m') | None => None end = Some (l, a', m') -> shell_step listener internal (SIntern g) m l a' m').
      { intros g H. destruct (gnext SHELL g m) as [[[l1 g1] m1]|] eqn:E; [|discriminate]. injection H as <- <- <-. constructor. now apply gnext_sound. }
      destruct a; cbn [shellf].
      - destruct (m_shellq m) eqn:E; [destruct (asked (m_call m)) eqn:E2; [|discriminate]|]; intros [= <- <- <-].
        + now constructor.
        + apply ss_poll_shell. rewrite E. discriminate.
      - destruct (m_shellq m) eqn:E; [discriminate|]. intros [= <- <- <-]. now constructor.
      - destruct g as [p|k]; [|apply G]. destruct p; try apply G. intros [= <- <- <-]. apply ss_ret.
      - destruct (m_call m) as [|[|f w]|] eqn:E; try discriminate. destruct (String.eqb_spec f "stop"); intros [= <- <- <-].
        + now constructor.
        + now constructor.
      - destruct g as [p|k]; [|apply G']. destruct p; try apply G'. intros [= <- <- <-]. apply ss_intern_ret.
      - discriminate.
      - discriminate.
    Qed.
    Definition controlf (b : ctpc U) (m : mem U) : option (slabel * ctpc U * mem U) :=
      match b with
      | CTest => Some (YTau TControl, (if m_stop m then CStopShell else CRecv), m)
      | CRecv => match m_ctlq m with w :: q => Some (YHand CONTROL w, CRun (Going (listener CONTROL w)), set_ctlq q m) | [] => None end
      | CRun (Going (Ret _)) => Some (YTau TControl, CTest, m)
      | CRun g => match gnext CONTROL g m with Some (l, g', m') => Some (l, CRun g', m') | None => None end
      | CStopShell => match m_call m with SIdle => Some (YTau TControl, CWaitShell, set_call (SAsked stop_frames) m) | _ => None end
      | CWaitShell => match m_call m with SAnswered _ => Some (YTau TControl, CStopPub, set_call SIdle m) | _ => None end
      | CStopPub => match f_ctl (m_pub m) with SIdle => Some (YTau TControl, CWaitPub, set_pub (f_set (SAsked stop_again) (m_pub m)) m) | _ => None end
      | CWaitPub => match f_ctl (m_pub m) with SAnswered _ => Some (YTau TControl, CStopHb, set_pub (f_set SIdle (m_pub m)) m) | _ => None end
      | CStopHb => match f_ctl (m_hb m) with SIdle => Some (YTau TControl, CWaitHb, set_hb (f_set (SAsked stop_again) (m_hb m)) m) | _ => None end
      | CWaitHb => match f_ctl (m_hb m) with SAnswered _ => Some (YTau TControl, CNotify, set_hb (f_set SIdle (m_hb m)) m) | _ => None end
      | CNotify | COut | CEnd => None
      end.
    Lemma controlf_sound b m l b' m' : controlf b m = Some (l, b', m') -> control_step listener b m l b' m'.
    Proof.
      assert (G : forall g, match gnext CONTROL g m with Some (l, g', m') => Some (l, CRun g', m') | None => None end = Some (l, b', m') -> control_step listener (CRun g) m l b' m').
      { intros g H. destruct (gnext CONTROL g m) as [[[l1 g1] m1]|] eqn:E; [|discriminate]. injection H as <- <- <-. constructor. now apply gnext_sound. }
      destruct b; cbn [controlf]; try discriminate.
      - intros [= <- <- <-]. destruct (m_stop m) eqn:E; now constructor.
      - destruct (m_ctlq m) eqn:E; [discriminate|]. intros [= <- <- <-]. now constructor.
      - destruct g as [p|k]; [|apply G]. destruct p; try apply G. intros [= <- <- <-]. econstructor.
      - destruct (m_call m) eqn:E; try discriminate. intros [= <- <- <-]. now constructor.
      - destruct (m_call m) eqn:E; try discriminate. intros [= <- <- <-]. econstructor; eauto.
      - destruct (f_ctl (m_pub m)) eqn:E; try discriminate. intros [= <- <- <-]. now constructor.
      - destruct (f_ctl (m_pub m)) eqn:E; try discriminate. intros [= <- <- <-]. econstructor; eauto.
      - destruct (f_ctl (m_hb m)) eqn:E; try discriminate. intros [= <- <- <-]. now constructor.
      - destruct (f_ctl (m_hb m)) eqn:E; try discriminate. intros [= <- <- <-]. econstructor; eauto.
    Qed.
    Inductive ychoice := YGo (t : tid) | YIn (c : channel) (w : frames) | YInBeat (w : frames) | YInStdin.
    Definition yst a b m t e : ysys U := {| y_sh := a; y_ct := b; y_mem := m; y_stopped := t; y_end := e |}.
    Definition failingf {A} (g : going U A) : bool := match g with Going (Throw _) | Going (Stuck _) => true | _ => false end.
    Definition ynext (c : ychoice) (s : ysys U) : option (slabel * ysys U) :=
      let m := y_mem s in
      match y_end s with
      | Some _ => None
      | None =>
          match c with
          | YGo TShell =>
              match y_sh s with
              | SOut =>
                  match v with
                  | ControlMain => Some (YTau TShell, yst SEnd (y_ct s) m (y_stopped s) None)
                  | ShellMain => if y_stopped s then Some (YTau TShell, yst SEnd (y_ct s) m (y_stopped s) (Some Exited)) else None
                  end
              | a =>
                  match shellf a m with
                  | Some (l, a', m') => Some (l, yst a' (y_ct s) m' (y_stopped s) None)
                  | None =>
                      if match a with SRun g _ => failingf g | SIntern g => failingf g | _ => false end
                      then Some (YTau TShell, yst a (y_ct s) m (y_stopped s) (Some Crashed)) else None
                  end
              end
          | YGo TControl =>
              match y_ct s with
              | CNotify => Some (YTau TControl, yst (y_sh s) COut m true None)
              | COut => Some (YTau TControl, yst (y_sh s) CEnd m (y_stopped s) (match v with ControlMain => Some Exited | ShellMain => None end))
              | b =>
                  match controlf b m with
                  | Some (l, b', m') => Some (l, yst (y_sh s) b' m' (y_stopped s) None)
                  | None =>
                      if match b with CRun g => failingf g | _ => false end
                      then Some (YTau TControl, yst (y_sh s) b m (y_stopped s) (Some Crashed)) else None
                  end
              end
          | YGo TPub => match fnext (m_pub m) with Some f => Some (YTau TPub, yst (y_sh s) (y_ct s) (set_pub f m) (y_stopped s) None) | None => None end
          | YGo TBeat => match fnext (m_hb m) with Some f => Some (YTau TBeat, yst (y_sh s) (y_ct s) (set_hb f m) (y_stopped s) None) | None => None end
          | YGo TEnv => None
          | YIn ch w =>
              Some (YArrive ch w, yst (y_sh s) (y_ct s) (match ch with SHELL => set_shellq (m_shellq m ++ [w]) m | CONTROL => set_ctlq (m_ctlq m ++ [w]) m end) (y_stopped s) None)
          | YInBeat w => Some (YBeat w, yst (y_sh s) (y_ct s) (set_hb (f_push w (m_hb m)) m) (y_stopped s) None)
          | YInStdin => Some (YStdin, yst (y_sh s) (y_ct s) (set_mstdin (S (m_stdin m)) m) (y_stopped s) None)
          end
      end.
    Lemma failingf_ok A (g : going U A) : failingf g = true -> match g with Going p => failing p | Calling _ => False end.
    Proof. destruct g as [[]|]; cbn; auto; discriminate. Qed.
    Lemma shellf_out m : shellf SOut m = None. Proof. reflexivity. Qed.
    Lemma ynext_sound c s l s' : ynext c s = Some (l, s') -> ystep v listener internal s l s'.
    Proof.
      destruct s as [a b m t e]. unfold ynext, yst. cbn [y_sh y_ct y_mem y_stopped y_end]. destruct e; [discriminate|].
      assert (GS : match shellf a m with
                  | Some (l, a', m') => Some (l, {| y_sh := a'; y_ct := b; y_mem := m'; y_stopped := t; y_end := None |})
                  | None =>
                      if match a with SRun g _ => failingf g | SIntern g => failingf g | _ => false end
                      then Some (YTau TShell, {| y_sh := a; y_ct := b; y_mem := m; y_stopped := t; y_end := Some Crashed |}) else None
                  end = Some (l, s') -> ystep v listener internal {| y_sh := a; y_ct := b; y_mem := m; y_stopped := t; y_end := None |} l s').
      { destruct (shellf a m) as [[[l1 a1] m1]|] eqn:E.
        - intros [= <- <-]. apply y_shell. now apply shellf_sound.
        - destruct (match a with SRun g _ => failingf g | SIntern g => failingf g | _ => false end) eqn:F; [|discriminate].
          intros [= <- <-]. apply y_crash_shell. destruct a; try discriminate; cbn; apply failingf_ok in F; exact F. }
      assert (GC : match controlf b m with
                  | Some (l, b', m') => Some (l, {| y_sh := a; y_ct := b'; y_mem := m'; y_stopped := t; y_end := None |})
                  | None =>
                      if match b with CRun g => failingf g | _ => false end
                      then Some (YTau TControl, {| y_sh := a; y_ct := b; y_mem := m; y_stopped := t; y_end := Some Crashed |}) else None
                  end = Some (l, s') -> ystep v listener internal {| y_sh := a; y_ct := b; y_mem := m; y_stopped := t; y_end := None |} l s').
      { destruct (controlf b m) as [[[l1 b1] m1]|] eqn:E.
        - intros [= <- <-]. apply y_control. now apply controlf_sound.
        - destruct (match b with CRun g => failingf g | _ => false end) eqn:F; [|discriminate].
          intros [= <- <-]. apply y_crash_control. destruct b; try discriminate; cbn; apply failingf_ok in F; exact F. }
      destruct c as [[]|ch w|w|].
      - destruct a; try exact GS. clear. pose proof (y_out_shell v listener internal b m t) as H. destruct v.
        + intros [= <- <-]. apply H. discriminate.
        + destruct t; [|discriminate]. intros [= <- <-]. apply H. auto.
      - destruct b; try exact GC; clear.
        + intros [= <- <-]. apply y_notify.
        + intros [= <- <-]. apply y_out_control.
      - destruct (fnext (m_pub m)) eqn:E; [|discriminate]. intros [= <- <-]. now apply y_publish.
      - destruct (fnext (m_hb m)) eqn:E; [|discriminate]. intros [= <- <-]. now apply y_beat.
      - discriminate.
      - intros [= <- <-]. apply y_arrive.
      - intros [= <- <-]. apply y_hb_arrive.
      - intros [= <- <-]. apply y_stdin_arrive.
    Qed.
    Fixpoint ymany (c : ychoice) (n : nat) (ls : list slabel) (s : ysys U) : list slabel * ysys U :=
      match n with
      | 0 => (ls, s)
      | S n => match ynext c s with Some (l, s') => ymany c n (ls ++ [l]) s' | None => (ls, s) end
      end.
    Fixpoint yexec (cs : list (ychoice * nat)) (ls : list slabel) (s : ysys U) : list slabel * ysys U :=
      match cs with [] => (ls, s) | (c, n) :: r => let (ls', s') := ymany c n ls s in yexec r ls' s' end.
    Lemma ymany_sound c n s0 ls s : yrun v listener internal s0 ls s -> yrun v listener internal s0 (fst (ymany c n ls s)) (snd (ymany c n ls s)).
    Proof.
      revert ls s. induction n as [|n IH]; intros ls s H; cbn; auto. destruct (ynext c s) as [[l s']|] eqn:E; auto.
      apply IH. econstructor; eauto. eapply ynext_sound; eauto.
    Qed.
    Lemma yexec_sound cs s0 ls s : yrun v listener internal s0 ls s -> yrun v listener internal s0 (fst (yexec cs ls s)) (snd (yexec cs ls s)).
    Proof.
      revert ls s. induction cs as [|[c n] cs IH]; intros ls s H; cbn; auto.
      pose proof (ymany_sound c n s0 ls s H) as D. destruct (ymany c n ls s) as [ls' s']. now apply IH.
    Qed.
    Lemma yexec_run cs s : yrun v listener internal s (fst (yexec cs [] s)) (snd (yexec cs [] s)).
    Proof. apply yexec_sound. constructor. Qed.
  End Split.
End Exec.
