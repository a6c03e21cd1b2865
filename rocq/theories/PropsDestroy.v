(** The destruction of a kernel: C99. *)
From Verif Require Import Base BaseFacts Auth JsonText Host HostProofs Comm Construct ConstructSpec ConstructProofs Destroy PropsConstruct.
From Coq Require Import Permutation.

Definition returns (f : fate) : Prop := exists z, f = Gone z.
(** The interpreter's comms are distinct objects, and their target is registered. *)
Definition sound (pol : indet) (z : standing) : Prop :=
  NoDup (z_owned z) /\ forall a, In a (z_owned z) -> exists c b t, heap (z_comms z) a = Some c /\ read_flag pol a (c_moved c) = Ok b /\
    node_of (c_target c) (targets (z_comms z)) = Some t /\ t_manager t = true.
Definition before {A} (a b : A) (l : list A) : Prop := exists l1 l2 l3, l = (l1 ++ a :: l2 ++ b :: l3)%list.

Section Facts.
  Context (pol : indet).
  Lemma destroy_all_app l1 l2 z : destroy_all pol (l1 ++ l2) z = match destroy_all pol l1 z with Gone z => destroy_all pol l2 z | f => f end.
  Proof. revert z. induction l1 as [|m l1 IH]; intros z; cbn [app destroy_all]; auto. destruct (destroy pol m z); auto. Qed.
  Lemma destroy_comms_ok l cs : NoDup l -> (forall a, In a l -> exists c b t, heap cs a = Some c /\ read_flag pol a (c_moved c) = Ok b /\
    node_of (c_target c) (targets cs) = Some t /\ t_manager t = true) -> exists cs', destroy_comms pol l cs = Ok cs'.
  Proof.
    revert cs. induction l as [|a l IH]; intros cs N S; cbn [destroy_comms]; [eauto|]. inversion N as [|? ? N1 N2]; subst.
    destruct (S a (or_introl eq_refl)) as (c & b & t & Hc & Hb & Ht & Hm).
    assert (exists cs', comm_destroy pol a cs = Ok cs' /\ targets cs' = targets cs /\ forall a', a' <> a -> heap cs' a' = heap cs a') as (cs' & -> & T & Hh).
    { unfold comm_destroy, deref. rewrite Hc. cbn [bind]. rewrite Hb. cbn [bind]. unfold unregister_comm, deref_target. rewrite Ht. cbn [bind]. rewrite Hm.
      destruct b; cbn [bind]; eexists; (split; [reflexivity|]); split; auto; intros a' Ha; cbn; destruct (Nat.eqb_spec a' a); congruence. }
    cbn [bind]. apply IH; auto. intros a' I. destruct (S a' (or_intror I)) as (c' & b' & t' & H1 & H2 & H3 & H4). exists c', b', t'. rewrite T, Hh; auto. intros ->. contradiction.
  Qed.
  (** What the destruction of one member can do. *)
  Lemma destroy_keeps m z z' : destroy pol m z = Gone z' ->
    (z_server z' = if match m with Server => true | _ => false end then [] else z_server z) /\
    (z_debugger z' = if match m with Debugger => true | _ => false end then [] else z_debugger z) /\ z_threads z' = z_threads z.
  Proof.
    destruct m; cbn [destroy]; try (intros [= <-]; auto; fail).
    - destruct (destroy_comms _ _ _); try discriminate. intros [= <-]. auto.
    - destruct (z_threads z) eqn:T; [discriminate|]. destruct (z_server z) eqn:E1, (z_debugger z) eqn:E2; try discriminate. intros [= <-]. auto.
  Qed.
  Lemma all_keep l z z' : destroy_all pol l z = Gone z' ->
    (~ In Server l -> z_server z' = z_server z) /\ (~ In Debugger l -> z_debugger z' = z_debugger z) /\ z_threads z' = z_threads z /\
    (In Server l -> z_server z' = []) /\ (In Debugger l -> z_debugger z' = []).
  Proof.
    revert z. induction l as [|m l IH]; cbn [destroy_all]; intros z H; [injection H as <-; cbn; tauto|].
    destruct (destroy pol m z) as [z1| |] eqn:D; try discriminate. apply destroy_keeps in D as (D1 & D2 & D3). destruct (IH _ H) as (I1 & I2 & I3 & I4 & I5).
    assert (forall x : member, In x l \/ ~ In x l) as Dec by (intros x; assert (forall a b : member, {a = b} + {a <> b}) as E by decide equality; destruct (in_dec E x l); auto).
    split; [|split; [|split; [congruence|]]].
    - intros N. cbn in N. rewrite I1, D1 by tauto. destruct m; auto. exfalso. apply N. auto.
    - intros N. cbn in N. rewrite I2, D2 by tauto. destruct m; auto. exfalso. apply N. auto.
    - split; intros [->|I]; auto.
      + destruct (Dec Server) as [J|J]; auto. rewrite I1 by auto. exact D1.
      + destruct (Dec Debugger) as [J|J]; auto. rewrite I2 by auto. exact D2.
  Qed.
  (** The comms of the interpreter go with it. *)
  Lemma destroy_comms_frees l : forall cs cs', destroy_comms pol l cs = Ok cs' ->
    (forall a, heap cs a = None -> heap cs' a = None) /\ (forall a, In a l -> heap cs' a = None).
  Proof.
    induction l as [|x l IH]; cbn [destroy_comms]; intros cs cs' H; [injection H as <-; split; auto; intros a []|].
    destruct (comm_destroy pol x cs) as [cs1| |] eqn:D; try discriminate. cbn [bind] in H. destruct (IH _ _ H) as (I1 & I2).
    assert (heap cs1 x = None /\ forall a, heap cs a = None -> heap cs1 a = None) as (F1 & F2).
    { unfold comm_destroy, deref in D. destruct (heap cs x) as [c|]; [|discriminate]. cbn [bind] in D. destruct (read_flag pol x (c_moved c)) as [b| |]; try discriminate.
      cbn [bind] in D. destruct b; cbn [bind] in D.
      - injection D as <-. cbn. rewrite Nat.eqb_refl. split; auto. intros a Ha. destruct (Nat.eqb a x); auto.
      - unfold unregister_comm, deref_target in D. destruct (node_of (c_target c) (targets cs)) as [t|]; try discriminate. cbn [bind] in D. destruct (t_manager t); try discriminate. cbn [bind] in D.
        injection D as <-. cbn. rewrite Nat.eqb_refl. split; auto. intros a Ha. destruct (Nat.eqb a x); auto. }
    split; [auto|]. intros a [<-|I]; auto.
  Qed.
  Lemma all_free l : forall z z', destroy_all pol l z = Gone z' ->
    (forall a, heap (z_comms z) a = None -> heap (z_comms z') a = None) /\ (In Interpreter l -> z_owned z' = [] /\ forall a, In a (z_owned z) -> heap (z_comms z') a = None) /\
    (z_owned z' = z_owned z \/ z_owned z' = []).
  Proof.
    induction l as [|m l IH]; cbn [destroy_all]; intros z z' H; [injection H as <-; cbn; tauto|].
    destruct (destroy pol m z) as [z1| |] eqn:D; try discriminate. destruct (IH _ _ H) as (I1 & I2 & I3).
    assert (m = Interpreter \/ (m <> Interpreter /\ z_owned z1 = z_owned z /\ forall a, heap (z_comms z) a = None -> heap (z_comms z1) a = None)) as [->|(Ni & O1 & F1)].
    { destruct m; auto; right; (split; [discriminate|]); cbn [destroy] in D; try (injection D as <-; cbn; auto; fail).
      destruct (z_threads z); [discriminate|]. destruct (z_server z), (z_debugger z); try discriminate. injection D as <-. auto. }
    - cbn [destroy] in D. destruct (destroy_comms pol (z_owned z) (z_comms z)) as [cs| |] eqn:Dc; try discriminate. injection D as <-. cbn [z_owned z_comms] in *.
      destruct (destroy_comms_frees _ _ _ Dc) as (F1 & F2). split; [auto|]. assert (z_owned z' = []) by (destruct I3; auto). split; auto.
    - rewrite O1 in *. split; [auto|]. split; [|auto]. intros [->|I]; [congruence|auto].
  Qed.
End Facts.

(** C99. The order of the declarations that is needed: with the context before the server and the debugger, and the core before the
    interpreter, every kernel whose threads do not run can be destroyed, and all sockets and the comms of the interpreter are gone then. *)
Theorem C99_order : forall pol declared z, Permutation declared members -> before Context Server declared -> before Context Debugger declared -> before Core Interpreter declared ->
  z_threads z = false -> sound pol z ->
  exists z', tear_down pol declared z = Gone z' /\ z_server z' = [] /\ z_debugger z' = [] /\ z_owned z' = [] /\
    forall a, In a (z_owned z) -> heap (z_comms z') a = None.
Proof.
  intros pol declared z P (a1 & a2 & a3 & A) (b1 & b2 & b3 & B) (c1 & c2 & c3 & C) T S. unfold tear_down.
  assert (NoDup declared) as N by (eapply Permutation_NoDup; [apply Permutation_sym, P|]; repeat constructor; cbn; intuition discriminate).
  assert (forall l2 l1 z', rev declared = (l1 ++ l2)%list -> z_threads z' = false -> (In Server l1 -> z_server z' = []) -> (In Debugger l1 -> z_debugger z' = []) ->
    (In Interpreter l1 \/ sound pol z') -> exists z2, destroy_all pol l2 z' = Gone z2) as K.
  2:{ destruct (K (rev declared) [] z) as (z2 & E); auto; try (intros []; fail). exists z2. split; [exact E|].
      assert (forall m, In m (rev declared)) as All by (intros m; rewrite <- in_rev; eapply Permutation_in; [apply Permutation_sym, P|]; destruct m; cbn; tauto).
      destruct (all_keep pol _ _ _ E) as (_ & _ & _ & K1 & K2). destruct (all_free pol _ _ _ E) as (_ & K3 & _). destruct (K3 (All _)). auto 6. }
  induction l2 as [|m l2 IH]; intros l1 z' E T' S1 D1 I1; cbn [destroy_all]; [eauto|].
  assert (~ In m l1) as Nm. { intros X. apply NoDup_rev in N. rewrite E in N. apply NoDup_remove_2 in N. apply N, in_or_app. auto. }
  assert (forall x y u v w, declared = (u ++ x :: v ++ y :: w)%list -> m = x -> In y l1) as Ord.
  { intros x y u v w Eq ->. rewrite Eq in E. rewrite rev_app_distr in E. cbn [rev] in E. rewrite rev_app_distr in E. cbn [rev] in E.
    repeat rewrite <- app_assoc in E. cbn [app] in E.
    assert (In y (rev w ++ y :: rev v)) as Iy by (apply in_or_app; right; left; reflexivity).
    replace (rev w ++ y :: rev v ++ x :: rev u)%list with ((rev w ++ y :: rev v) ++ x :: rev u)%list in E by (rewrite <- app_assoc; reflexivity).
    assert (rev declared = ((rev w ++ y :: rev v) ++ x :: rev u)%list) as E2.
    { rewrite Eq, rev_app_distr. cbn [rev]. rewrite rev_app_distr. cbn [rev]. repeat rewrite <- app_assoc. reflexivity. }
    assert ((rev w ++ y :: rev v)%list = l1) as <-; auto. apply NoDup_rev in N. rewrite E2 in N.
    clear - E N Nm. revert E N Nm. generalize (rev w ++ y :: rev v)%list as p. intros p. revert l1. induction p as [|q p IHp]; intros [|r l1] E N Nm; cbn in *; auto.
    - injection E as -> _. tauto.
    - injection E as <- _. exfalso. inversion N; subst. apply H1. apply in_or_app. cbn. auto.
    - injection E as <- E. f_equal. apply IHp; [exact E|now inversion N|tauto]. }
  assert (exists z1, destroy pol m z' = Gone z1 /\ (m <> Core -> m <> Interpreter -> z_comms z1 = z_comms z' /\ z_owned z1 = z_owned z')) as (z1 & D & Cm).
  { destruct m; cbn [destroy]; try (eexists; split; [reflexivity|]; cbn; auto; congruence).
    - destruct I1 as [I1|(ND & I1)]; [contradiction|]. destruct (destroy_comms_ok pol (z_owned z') (z_comms z') ND I1) as (cs & ->). eexists; split; [reflexivity|]. congruence.
    - rewrite T', S1, D1; [eexists; split; [reflexivity|auto]| |]; eapply Ord; eauto. }
  rewrite D. pose proof (destroy_keeps _ _ _ _ D) as (K1 & K2 & K3).
  apply (IH (l1 ++ [m])%list); [rewrite E, <- app_assoc; reflexivity|congruence| | |].
  - rewrite K1. destruct m; auto; intros X; apply S1; apply in_app_or in X as [X|[X|[]]]; auto; discriminate.
  - rewrite K2. destruct m; auto; intros X; apply D1; apply in_app_or in X as [X|[X|[]]]; auto; discriminate.
  - destruct I1 as [I1|I1]; [left; apply in_or_app; auto|]. assert (forall x y : member, {x = y} + {x <> y}) as Dec by decide equality.
    destruct (Dec m Interpreter) as [->|Ni]; [left; apply in_or_app; cbn; auto|]. destruct (Dec m Core) as [->|Nc].
    + left. apply in_or_app. left. eapply Ord; eauto.
    + right. destruct (Cm Nc Ni) as (C1 & C2). unfold sound. rewrite C1, C2. exact I1.
Qed.
Print Assumptions C99_order.

(** The order in the code: the destructor of a kernel returns only if no socket was made with the context. *)
Theorem C99_waits : forall pol z, returns (tear_down pol members z) -> z_server z = [] /\ z_debugger z = [] /\ z_threads z = false.
Proof.
  intros pol z (z' & H). unfold tear_down, members in H. cbn [rev app destroy_all destroy z_threads z_server z_debugger] in H.
  destruct (z_threads z); [discriminate|]. destruct (z_server z), (z_debugger z); try discriminate. auto.
Qed.
Print Assumptions C99_waits.
Theorem C99_returns : forall pol z, z_server z = [] -> z_debugger z = [] -> z_threads z = false -> z_owned z = [] -> returns (tear_down pol members z).
Proof.
  intros pol z H1 H2 H3 H4. unfold tear_down, members. cbn [rev app destroy_all destroy z_threads z_server z_debugger]. rewrite H1, H2, H3.
  cbn [destroy_all destroy z_owned z_comms]. rewrite H4. cbn. eexists; reflexivity.
Qed.
Print Assumptions C99_returns.

(** A kernel that was not started and has a server of the library: the destructor waits for the sockets of the server, and the server
    is destroyed after the context. *)
Theorem C99_library : forall pol split debugger cs owned,
  let z := {| z_server := server_sockets split; z_debugger := debugger; z_comms := cs; z_owned := owned; z_threads := false |} in
  exists z', tear_down pol members z = Waits Context z' /\ z_server z' = server_sockets split.
Proof. intros pol [] debugger cs owned; eexists; (split; [reflexivity|reflexivity]). Qed.
Print Assumptions C99_library.
(** If its threads run, they throw. *)
Theorem C99_started : forall pol z, z_threads z = true -> tear_down pol members z = Dies "zmq::error_t in a thread".
Proof. intros pol z H. unfold tear_down, members. cbn [rev app destroy_all destroy z_threads]. rewrite H. reflexivity. Qed.
Print Assumptions C99_started.

(** The constructor: an exception thrown before the server exists reaches the caller of the constructor; one thrown later does not. *)
Theorem C99_throws : forall pol H x c e, snd (init H x c) = Exn e -> server_made H x c = false -> forall cs, construct pol H x c [] cs [] = Throws e.
Proof. intros pol H x c e E F cs. unfold construct. rewrite E, F. reflexivity. Qed.
Print Assumptions C99_throws.
Theorem C99_early : forall pol H x c calls b e, init H x c = (calls, b, Exn e) -> (forall c', ~ In (CServer c') calls) -> forall cs, construct pol H x c [] cs [] = Throws e.
Proof.
  intros pol H x c calls b e E N cs. apply C99_throws; [now rewrite E|]. unfold init in E. unfold server_made. cbn zeta in *.
  set (c1 := if String.eqb (g_key c) "" then with_key (h_guid H 2) c else c) in *.
  destruct (make_xauthentication (g_scheme c1) (g_key c1)); auto.
  assert (In (CServer c1) calls) as I; [|exfalso; exact (N _ I)].
  destruct (make_server H (x_split x) c1 _) as [[? ?]| |]; try (injection E as <- <- _; cbn; auto; fail).
  destruct (update_config _ _); try (injection E as <- <- _; cbn; auto; fail). destruct (x_debugger x _ _); injection E as <- <- _; cbn; auto.
Qed.
Print Assumptions C99_early.
(** The server exists when the debugger is built. *)
Theorem C99_made : forall H x c calls b r c' s, init H x c = (calls, b, r) -> In (CDebugger c' s) calls -> server_made H x c = true.
Proof.
  intros H x c calls b r c' s E I. unfold init in E. unfold server_made. cbn zeta in *.
  set (c1 := if String.eqb (g_key c) "" then with_key (h_guid H 2) c else c) in *.
  destruct (make_xauthentication (g_scheme c1) (g_key c1)); [|injection E as <- <- <-; destruct I|injection E as <- <- <-; destruct I].
  destruct (make_server H (x_split x) c1 _) as [[? ?]| |]; auto; injection E as <- <- <-; destruct I as [I|[]]; discriminate.
Qed.
Print Assumptions C99_made.
Theorem C99_late : forall pol H x c e, snd (init H x c) = Exn e -> server_made H x c = true -> forall debugger cs owned, construct pol H x c debugger cs owned = Never Context.
Proof. intros pol H x c e E F debugger cs owned. unfold construct. rewrite E, F. destruct (x_split x); reflexivity. Qed.
Print Assumptions C99_late.

(** The comms of the interpreter outlive the comm manager: a comm that is not moved from makes the destructor read a target that is gone. *)
Lemma destroy_comms_gone pol l cs : targets cs = [] -> NoDup l -> (forall a, In a l -> exists c b, heap cs a = Some c /\ read_flag pol a (c_moved c) = Ok b) ->
  (exists a c, In a l /\ heap cs a = Some c /\ read_flag pol a (c_moved c) = Ok false) -> destroy_comms pol l cs = UB "dangling xtarget*".
Proof.
  revert cs. induction l as [|a l IH]; intros cs T N S (b & d & I & Hd & Fd); [destruct I|]. cbn [destroy_comms]. inversion N as [|? ? N1 N2]; subst.
  destruct (S a (or_introl eq_refl)) as (c & f & Hc & Hf). unfold comm_destroy, deref. rewrite Hc. cbn [bind]. rewrite Hf. cbn [bind]. destruct f.
  - cbn [bind]. assert (b <> a) as Nb by (intros ->; congruence). destruct I as [->|I]; [congruence|]. apply IH; auto.
    + intros a' I'. assert (a' <> a) by (intros ->; contradiction). destruct (S a' (or_intror I')) as (c' & f' & H1 & H2). exists c', f'. cbn. destruct (Nat.eqb_spec a' a); [contradiction|auto].
    + exists b, d. cbn. destruct (Nat.eqb_spec b a); [contradiction|auto].
  - unfold unregister_comm, deref_target. rewrite T. reflexivity.
Qed.
Theorem C99_comms : forall pol z a c, z_server z = [] -> z_debugger z = [] -> z_threads z = false -> sound pol z ->
  In a (z_owned z) -> heap (z_comms z) a = Some c -> read_flag pol a (c_moved c) = Ok false ->
  tear_down pol members z = Dies "dangling xtarget*".
Proof.
  intros pol z a c H1 H2 H3 (N & S) I Hc F. unfold tear_down, members. cbn [rev app destroy_all destroy z_threads z_server z_debugger]. rewrite H1, H2, H3.
  cbn [destroy_all destroy z_owned z_comms]. rewrite destroy_comms_gone; [reflexivity|reflexivity|exact N| |exists a, c; auto].
  intros a' I'. destruct (S a' I') as (c' & b & t & X & Y & _). exists c', b. auto.
Qed.
Print Assumptions C99_comms.

(** A kernel with one comm, owned by its interpreter. *)
Definition one_comm : comms :=
  {| heap := fun a => if Nat.eqb a 0 then Some {| c_close := None; c_message := None; c_target := 0; c_id := "c1"; c_moved := Init false |} else None; next_addr := 1;
     registry := [("c1", 0)]; targets := [("widget", (0, {| t_name := "widget"; t_callback := None; t_manager := true |}))]; next_node := 1 |}.
Definition kernel_with (server debugger : list string) (owned : list nat) : standing :=
  {| z_server := server; z_debugger := debugger; z_comms := one_comm; z_owned := owned; z_threads := false |}.
Definition better_order : list member :=
  [Config; KernelId; SessionId; UserName; Context; Core; Interpreter; HistoryManager; Logger; ServerBuilder; Server; DebuggerBuilder; Debugger; DebuggerConfig; ErrorHandler].
Lemma one_comm_sound pol s d : sound pol (kernel_with s d [0]).
Proof. split; [repeat constructor; cbn; tauto|]. intros a [<-|[]]. eexists _, false, _. repeat split; reflexivity. Qed.
Example C99_order_ex : Permutation better_order members /\ before Context Server better_order /\ before Context Debugger better_order /\ before Core Interpreter better_order /\
  (forall pol, sound pol (kernel_with (server_sockets false) ["header"; "request"] [0])) /\
  (forall pol, exists z, tear_down pol better_order (kernel_with (server_sockets false) ["header"; "request"] [0]) = Gone z /\ z_server z = [] /\ z_owned z = []) /\
  (forall pol, tear_down pol members (kernel_with [] [] [0]) = Dies "dangling xtarget*").
Proof.
  split; [|split; [|split; [|split; [|split; [|split]]]]].
  - apply NoDup_Permutation_bis; [repeat constructor; cbn; intuition discriminate|cbn; lia|intros x; cbn; tauto].
  - exists [Config; KernelId; SessionId; UserName], [Core; Interpreter; HistoryManager; Logger; ServerBuilder], [DebuggerBuilder; Debugger; DebuggerConfig; ErrorHandler]. reflexivity.
  - exists [Config; KernelId; SessionId; UserName], [Core; Interpreter; HistoryManager; Logger; ServerBuilder; Server; DebuggerBuilder], [DebuggerConfig; ErrorHandler]. reflexivity.
  - exists [Config; KernelId; SessionId; UserName; Context], [], [HistoryManager; Logger; ServerBuilder; Server; DebuggerBuilder; Debugger; DebuggerConfig; ErrorHandler]. reflexivity.
  - intros pol. apply one_comm_sound.
  - intros pol. eexists. split; [reflexivity|split; reflexivity].
  - intros pol. exact (C99_comms pol (kernel_with [] [] [0]) 0 _ eq_refl eq_refl eq_refl (one_comm_sound pol [] []) (or_introl eq_refl) eq_refl eq_refl).
Qed.

(** C99. Not every kernel that was constructed can be destroyed. *)
Theorem C99_destroy_refuted : ~ (forall pol H x c k cs, snd (init H x c) = Ok k ->
  returns (tear_down pol members {| z_server := server_sockets (x_split x); z_debugger := []; z_comms := cs; z_owned := []; z_threads := false |})).
Proof.
  intros R. destruct (snd (init free_host (plain_args false) default_config)) as [k| |] eqn:I; [|vm_compute in I; discriminate|vm_compute in I; discriminate].
  destruct (C99_waits _ _ (R IndetUB _ _ _ k one_comm I)) as (X & _). discriminate.
Qed.
Print Assumptions C99_destroy_refuted.
(** C99. What the interpreter's [configure], or the builder of the debugger, throws does not leave the constructor. *)
Definition failing_configure (split : bool) : args :=
  {| x_split := split; x_logger := true; x_env := false; x_debugger _ _ := Ok false; x_configure := Exn (Std "no such compiler") |}.
Definition failing_debugger (split : bool) : args :=
  {| x_split := split; x_logger := true; x_env := false; x_debugger _ _ := Exn (Std "no debugger"); x_configure := Ok tt |}.
Example C99_late_ex : forall pol split cs,
  snd (init free_host (failing_configure split) default_config) = Exn (Std "no such compiler") /\
  construct pol free_host (failing_configure split) default_config [] cs [] = Never Context /\
  snd (init free_host (failing_debugger split) default_config) = Exn (Std "no debugger") /\
  construct pol free_host (failing_debugger split) default_config [] cs [] = Never Context.
Proof.
  intros pol split cs. assert (snd (init free_host (failing_configure split) default_config) = Exn (Std "no such compiler") /\ server_made free_host (failing_configure split) default_config = true) as (A & A')
    by (destruct split; vm_compute; auto).
  assert (snd (init free_host (failing_debugger split) default_config) = Exn (Std "no debugger") /\ server_made free_host (failing_debugger split) default_config = true) as (B & B')
    by (destruct split; vm_compute; auto).
  repeat split; auto; [exact (C99_late pol _ _ _ _ A A' _ _ _)|exact (C99_late pol _ _ _ _ B B' _ _ _)].
Qed.
(** A port that is taken, an unknown scheme: these are reported. *)
Definition taken_port : config :=
  {| g_transport := "tcp"; g_ip := "127.0.0.1"; g_control := "50160"; g_shell := "50160"; g_stdin := ""; g_iopub := ""; g_hb := ""; g_scheme := "hmac-sha256"; g_key := "" |}.
Definition unknown_scheme : config :=
  {| g_transport := "tcp"; g_ip := "127.0.0.1"; g_control := ""; g_shell := ""; g_stdin := ""; g_iopub := ""; g_hb := ""; g_scheme := "hmac-sha3"; g_key := "" |}.
Example C99_throws_ex : forall pol split cs,
  construct pol free_host (plain_args split) taken_port [] cs [] = Throws (Std "zmq::error_t") /\
  exists e, construct pol free_host (plain_args split) unknown_scheme [] cs [] = Throws e.
Proof.
  intros pol split cs. split; [apply C99_throws; destruct split; vm_compute; reflexivity|].
  destruct (C96_scheme free_host (plain_args split) unknown_scheme) as (e & E); [discriminate|vm_compute; intuition discriminate|].
  exists e. apply C99_throws; [rewrite E; reflexivity|destruct split; vm_compute; reflexivity].
Qed.
Theorem C99_throw_refuted : ~ (forall pol H x c e cs, snd (init H x c) = Exn e -> construct pol H x c [] cs [] = Throws e).
Proof.
  intros R. destruct (C99_late_ex IndetUB false one_comm) as (A & B & _). pose proof (R IndetUB _ _ _ _ one_comm A) as X. rewrite B in X. discriminate.
Qed.
Print Assumptions C99_throw_refuted.
