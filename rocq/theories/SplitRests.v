(** The threads of the split servers come back to rest. *)
From Verif Require Import Base BaseFacts Json JsonText Auth Message History Comm Tree Kernel KernelSpec Server ServerSpec ServerProofs ServerLemmas Split SplitSpec Threads SplitProofs SplitCalls SplitStop LiveSpec Live SplitLiveSpec SplitLive SplitAnsweredSpec.

Section Rests.
  Context {U : Type} (v : variant) (E : env U) (k0 : kstate U) (start : frames) (sigma : nat -> ysys U) (lab : nat -> option slabel).
  Hypothesis Hex : execution v (fun c w => dispatch E w c) (dispatch_internal E) sigma lab.
  Hypothesis H0 : sigma 0 = y_init k0 start.
  Hypothesis Hshell : fair v (fun c w => dispatch E w c) (dispatch_internal E) sigma lab TShell.
  Hypothesis Hcalls : forall n, ~ calls_itself (sigma n).
  Hypothesis Hstdin : gets_input SHELL sigma.
  Lemma shell_rests n : ev n (fun m => over sigma m \/ rests SHELL (sigma m)).
  Proof.
    destruct (y_sh (sigma n)) as [|b|[p|k] b| |[p|k]| |] eqn:Hs; try (apply ev_now; right; unfold rests; rewrite Hs; exact I).
    - apply (from_prog v E sigma lab Hex Hshell Hcalls Hstdin (fun _ => True) (fun m => rests SHELL (sigma m)) ltac:(auto) ltac:(auto) b p); auto.
      intros m _ Hm. apply ev_now. right. unfold rests. rewrite Hm. now destruct b.
    - pose proof (Hcalls n) as C. unfold calls_itself in C. rewrite Hs in C. now destruct C.
    - apply (from_intern v E sigma lab Hex Hshell Hcalls Hstdin (fun _ => True) (fun m => rests SHELL (sigma m)) ltac:(auto) ltac:(auto) p); auto.
      intros i m r _ Hm _ _. apply ev_now. right. unfold rests. now rewrite Hm.
    - pose proof (Hcalls n) as C. unfold calls_itself in C. rewrite Hs in C. now destruct C.
  Qed.
  Hypothesis Hcontrol : fair v (fun c w => dispatch E w c) (dispatch_internal E) sigma lab TControl.
  Hypothesis Hoff : keeps_off lab.
  Hypothesis Hstdin2 : gets_input CONTROL sigma.
  Lemma control_rests n : ev n (fun m => over sigma m \/ rests CONTROL (sigma m)).
  Proof.
    assert (T : forall m, True -> y_ct (sigma m) = CTest -> ev m (fun m => over sigma m \/ rests CONTROL (sigma m))).
    { intros m _ Hm. apply ev_now. right. unfold rests. now rewrite Hm. }
    destruct (y_ct (sigma n)) as [| |[p|k]| | | | | | | | |] eqn:Hs; try (apply ev_now; right; unfold rests; rewrite Hs; exact I).
    - eapply from_crun with (X := fun _ => True) (Q := fun m => rests CONTROL (sigma m)); eauto.
    - eapply from_call with (X := fun _ => True) (Q := fun m => rests CONTROL (sigma m)); eauto.
      intros w m _ Hm. eapply from_crun with (X := fun _ => True) (Q := fun m => rests CONTROL (sigma m)); eauto.
  Qed.
End Rests.
