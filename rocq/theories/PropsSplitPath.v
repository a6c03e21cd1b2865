(** The threads of the split servers run the programs of their listeners: C81. *)
From Verif Require Import Base BaseFacts Json JsonText Utf8 Auth Message WireSpec History Comm Tree Kernel KernelSpec KernelDemo
  Server ServerSpec ServerExec Split SplitSpec ServerDemo SequentialSpec SplitStreamSpec PropsSplitStream SplitPathSpec SplitPath PropsServer.

(** C81. What a thread does from one call of its listener until it starts something else is a path of the
    listener's program from its first to its last operation, whatever the other threads do. The program
    goes on with the very frames it took from the shell socket, and with the very answer to its
    internal request; none of its events is lost, doubled, reordered or attributed to another thread. *)
Theorem C81_handled : forall U v (E : env U) k start ls s c w l l1 l2 l3,
  yrun v (fun c w => dispatch E w c) (dispatch_internal E) (y_init k start) ls s ->
  ls = (l1 ++ YHand c w :: l2 ++ l :: l3)%list -> in_same c l2 -> starts c l ->
  follows c (dispatch E w c) (own_labels c l2) (Ret tt).
Proof. intros U v E k start ls s c w l l1 l2 l3 H. exact (handled_whole v (fun c w => dispatch E w c) (dispatch_internal E) k start ls s c l1 w l2 l l3 H). Qed.
Print Assumptions C81_handled.
(** The same for an internal request; the thread then sends what the program returned, and nothing else. *)
Theorem C81_internal : forall U v (E : env U) k start ls s w l l1 l2 l3,
  yrun v (fun c w => dispatch E w c) (dispatch_internal E) (y_init k start) ls s ->
  ls = (l1 ++ YIntern w :: l2 ++ l :: l3)%list -> in_same SHELL l2 -> starts SHELL l ->
  exists l2' r, own_labels SHELL l2 = (l2' ++ [YInternEnd r])%list /\ follows SHELL (dispatch_internal E w) l2' (Ret r).
Proof. intros U v E k start ls s w l l1 l2 l3 H. exact (internal_whole v (fun c w => dispatch E w c) (dispatch_internal E) k start ls s l1 w l2 l l3 H). Qed.
Print Assumptions C81_internal.
(** At any moment in between, it is an initial part of such a path. *)
Theorem C81_meanwhile : forall U v (E : env U) k start ls s,
  yrun v (fun c w => dispatch E w c) (dispatch_internal E) (y_init k start) ls s ->
  (forall c w l1 l2, ls = (l1 ++ YHand c w :: l2)%list -> in_same c l2 -> follows_on c (dispatch E w c) (own_labels c l2)) /\
  (forall w l1 l2, ls = (l1 ++ YIntern w :: l2)%list -> in_same SHELL l2 ->
     follows_on SHELL (dispatch_internal E w) (own_labels SHELL l2) \/
     exists l2' r, own_labels SHELL l2 = (l2' ++ [YInternEnd r])%list /\ follows SHELL (dispatch_internal E w) l2' (Ret r)).
Proof.
  intros U v E k start ls s H. split; intros.
  - eapply (handled_part v (fun c w => dispatch E w c) (dispatch_internal E)); eauto.
  - eapply (internal_part v (fun c w => dispatch E w c) (dispatch_internal E)); eauto.
Qed.
Print Assumptions C81_meanwhile.

(** [crossing], and a request after that: the debug request asks the shell thread. *)
Definition label_name (l : slabel) : string :=
  match l with
  | YEvent _ e => String.concat "," (event_names [e])
  | YTook _ _ => "took" | YCall _ _ => "call" | YAnswer _ _ => "answer" | YInternEnd _ => "sent" | _ => ""
  end.
Definition crossing_on : list (ychoice * nat) := crossing ++ (YIn SHELL info, 1) :: mix 20.
Definition is_intern (l : slabel) : bool := match l with YIntern _ => true | _ => false end.
Example C81_ex : let ls := fst (split_run ControlMain crossing_on) in
  yrun ControlMain slisten sintern (y_init demo_start ["start"]) ls (snd (split_run ControlMain crossing_on)) /\
  (exists l1 l2 l l3, ls = (l1 ++ YHand CONTROL debug :: l2 ++ l :: l3)%list /\ in_same CONTROL l2 /\ starts CONTROL l /\
    List.map label_name (own_labels CONTROL l2) = ["busy"; "debugger"; "call"; "answer"; "debug_reply"; "idle"]) /\
  (exists l1 l2 l l3, ls = (l1 ++ YHand SHELL failing_cell :: l2 ++ l :: l3)%list /\ in_same SHELL l2 /\ starts SHELL l /\
    List.map label_name (own_labels SHELL l2) = ["busy"; "execute_input"; "interpreter"; "error"; "execute_reply"; "took"; "execute_reply"; "took"; "kernel_info_reply"; "idle"]) /\
  (exists w l1 l2 l l3, ls = (l1 ++ YIntern w :: l2 ++ l :: l3)%list /\ in_same SHELL l2 /\ starts SHELL l /\ List.map label_name (own_labels SHELL l2) = ["interpreter"; "sent"]).
Proof.
  cbv zeta. split; [apply split_run_ok|]. set (ls := fst (split_run ControlMain crossing_on)). split; [|split].
  - set (r := tl (snd (ysplit (is_hand CONTROL debug) ls))). set (q := snd (ysplit (startsb CONTROL) r)).
    exists (fst (ysplit (is_hand CONTROL debug) ls)), (fst (ysplit (startsb CONTROL) r)), (hd (YTau TControl) q), (tl q).
    split; [vm_compute; reflexivity|]. split; [apply startsb_ok; vm_compute; reflexivity|]. vm_compute. auto.
  - set (r := tl (snd (ysplit (is_hand SHELL failing_cell) ls))). set (q := snd (ysplit (startsb SHELL) r)).
    exists (fst (ysplit (is_hand SHELL failing_cell) ls)), (fst (ysplit (startsb SHELL) r)), (hd (YTau TShell) q), (tl q).
    split; [vm_compute; reflexivity|]. split; [apply startsb_ok; vm_compute; reflexivity|]. vm_compute. auto.
  - set (p := snd (ysplit is_intern ls)). set (q := snd (ysplit (startsb SHELL) (tl p))).
    exists (match hd (YTau TShell) p with YIntern w => w | _ => [] end), (fst (ysplit is_intern ls)), (fst (ysplit (startsb SHELL) (tl p))), (hd (YTau TShell) q), (tl q).
    split; [vm_compute; reflexivity|]. split; [apply startsb_ok; vm_compute; reflexivity|]. vm_compute. auto.
Qed.
