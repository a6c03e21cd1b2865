(** Properties C19, C23-C26: comms.

    [csteps pol P ops cs cs']: the operations [ops], each satisfying [P], lead from [cs] to [cs'].
    [pol] is what reading the uninitialised flag m_moved_from does; [lucky pol]: it reads false.
    [serves E msgs s s']: the kernel handled [msgs]; [user_comms E Q]: the comm operations of all user
    code satisfy [Q]. *)
From Verif Require Import CommHandlersSpec.
From Verif Require Import Base BaseFacts Json JsonText Utf8 Utf8Proofs JsonTextProofs Auth Message WireSpec WireLemmas History Comm CommSpec CommProofs Tree Kernel KernelSpec KernelProofs KernelRun KernelHandlers KernelReplies KernelExec KernelDispatch KernelLemmas KernelExecProps KernelSession KernelMisc KernelComm KernelDemo.

(** C23 *)
Theorem C23_registry : forall pol ops cs, lucky pol -> csteps pol (fun _ o => not_self_move o) ops no_comms cs -> no_dangling cs.
Proof. intros pol ops cs Hl H. apply reg_ok_no_dangling. eapply reg_ok_steps; eauto using reg_ok_init. auto. Qed.
Print Assumptions C23_registry.
Theorem C23_kernel : forall U (E : env U), lucky (e_indet E) -> user_comms E not_self_move ->
  forall u q msgs s', serves E msgs (fst (run (kernel_start E) (kinit u q))) s' -> no_dangling (k_comms s').
Proof.
  intros U E Hl HC u q msgs s' Hs. apply reg_ok_no_dangling.
  destruct (serves_comms E not_self_move (fun _ _ => I) (fun _ => I) (fun _ => I) HC msgs _ s' Hs) as (ops & H).
  destruct (keeps_start E not_self_move HC (kinit u q)) as (ops0 & H0).
  eapply (reg_ok_steps _ _ _ _ _ Hl (fun _ _ X => X) H). eapply (reg_ok_steps _ _ _ _ _ Hl (fun _ _ X => X) H0). exact reg_ok_init.
Qed.
Print Assumptions C23_kernel.
Definition ex_ops : list cop := [CRegTarget "t" (Some 1); CNew 0 "a"; CNew 0 "b"; CMove 0; CCopy 1 "c"; CMoveAssign 1 3; CDestroy 0; CDestroy 3; CErase "c"].
(** A run with all operations of the list succeeding. *)
Fixpoint cfold (pol : indet) (ops : list cop) (cs : comms) : res comms :=
  match ops with [] => Ok cs | o :: l => let* cs := cstep pol o cs in cfold pol l cs end.
Lemma cfold_steps pol (P : comms -> cop -> Prop) ops : (forall cs o, In o ops -> P cs o) -> forall cs cs', cfold pol ops cs = Ok cs' -> csteps pol P ops cs cs'.
Proof.
  induction ops as [|o l IH]; intros HP cs cs'; cbn; [intros [= <-]; constructor|].
  destruct (cstep pol o cs) as [cs1| |] eqn:Hc; try discriminate. cbn. intros H. econstructor; [apply HP; now left | exact Hc | apply IH; auto]. intros; apply HP; now right.
Qed.
Definition lucky_policy : indet := IndetVal (fun _ => false).
Definition reg_of (r : res comms) : option (list (string * nat)) := match r with Ok cs => Some (registry cs) | _ => None end.
Example C23_ex : lucky lucky_policy /\ (exists cs, csteps lucky_policy (fun _ o => not_self_move o) ex_ops no_comms cs /\ registry cs = [("a", 2)]).
Proof.
  split; [intros a; reflexivity|]. destruct (cfold lucky_policy ex_ops no_comms) as [cs| |] eqn:H; [|discriminate H|discriminate H].
  exists cs. split; [apply cfold_steps; auto|]. { intros cs0 o Ho. unfold ex_ops in Ho. cbn in Ho. repeat (destruct Ho as [<-|Ho]; [exact I || discriminate|]). destruct Ho. }
  assert (X : reg_of (cfold lucky_policy ex_ops no_comms) = Some [("a", 2)]) by (vm_compute; reflexivity). rewrite H in X. now injection X.
Qed.
Example C23_kernel_ex : lucky (e_indet demo) /\ user_comms demo not_self_move /\
  registry (k_comms (send_all [(SHELL, comm_request "comm_open" "c1" [("target_name", JStr "chat")]); (SHELL, comm_request "comm_open" "c2" [("target_name", JStr "drop")]);
     (SHELL, comm_request "comm_open" "c3" [("target_name", JStr "chat")]); (SHELL, comm_request "comm_close" "c3" [])] demo_start)) = [("c1", 1)].
Proof. split; [intros a; reflexivity|]. split; [apply demo_comms; cbn; auto | vm_compute; reflexivity]. Qed.
(** The flag left uninitialised by two constructors happens to be true: the destructor does not
    unregister the comm. *)
Theorem C23_uninitialised_refuted : exists pol ops cs, csteps pol (fun _ o => not_self_move o) ops no_comms cs /\ ~ no_dangling cs.
Proof.
  set (ops := [CRegTarget "t" (Some 1); CNew 0 "a"; CDestroy 0]). exists (IndetVal (fun _ => true)), ops.
  destruct (cfold (IndetVal (fun _ => true)) ops no_comms) as [cs| |] eqn:H; [|discriminate H|discriminate H]. exists cs.
  split; [apply cfold_steps; auto|]. { intros cs0 o Ho. unfold ops in Ho. cbn in Ho. repeat (destruct Ho as [<-|Ho]; [exact I|]). destruct Ho. }
  intros Hn. destruct (Hn "a" 0) as (c & Hc & _); injection H as <-; [reflexivity | discriminate Hc].
Qed.
Print Assumptions C23_uninitialised_refuted.
(** In the C++ abstract machine the read itself is undefined. *)
Theorem C23_destroy_undefined : forall a c cs, heap cs a = Some c -> c_moved c = Indet -> is_ub (comm_destroy IndetUB a cs) = true.
Proof. intros a c cs Hh Hm. unfold comm_destroy, deref. rewrite Hh. cbn [bind]. unfold read_flag. now rewrite Hm. Qed.
Print Assumptions C23_destroy_undefined.
(** Self-move-assignment marks the comm moved-from: when it is destroyed, it stays registered. *)
Theorem C23_self_move_refuted : exists ops cs, csteps lucky_policy (fun _ _ => True) ops no_comms cs /\ ~ no_dangling cs.
Proof.
  set (ops := [CRegTarget "t" (Some 1); CNew 0 "a"; CMoveAssign 0 0; CDestroy 0]). exists ops.
  destruct (cfold lucky_policy ops no_comms) as [cs| |] eqn:H; [|discriminate H|discriminate H]. exists cs.
  split; [apply cfold_steps; auto|]. intros Hn. destruct (Hn "a" 0) as (c & Hc & _); injection H as <-; [reflexivity | discriminate Hc].
Qed.
Print Assumptions C23_self_move_refuted.

(** C24. [disciplined]: new identifiers are not those of live comms, moved-from comms are only
    destroyed. A comm that is not reachable was closed by a comm_close message. *)
Theorem C24_reachable : forall pol ops cs, lucky pol -> csteps pol disciplined ops no_comms cs ->
  (forall a c, in_use cs a c -> mfind (c_id c) (registry cs) = Some a \/ (erased ops (c_id c) /\ mfind (c_id c) (registry cs) = None)) /\
  (forall a b c d, in_use cs a c -> in_use cs b d -> c_id c = c_id d -> a = b).
Proof.
  intros pol ops cs Hl H. destruct (reach_ok_steps pol ops Hl _ _ _ H reach_ok_init) as (_ & H1 & H2). split; auto.
  intros a c Hi. destruct (H1 a c Hi) as [X|[[[]|X] Y]]; auto.
Qed.
Print Assumptions C24_reachable.
Lemma in_use_eval cs a c : heap cs a = Some c -> c_moved c <> Init true -> exists c, in_use cs a c.
Proof. intros H1 H2. exists c. now split. Qed.
Definition ex_ops24 : list cop := [CRegTarget "t" (Some 1); CNew 0 "a"; CNew 0 "b"; CMove 0; CMoveAssign 1 2; CDestroy 0; CDestroy 2].
Example C24_ex : exists cs, csteps lucky_policy disciplined ex_ops24 no_comms cs /\ registry cs = [("a", 1)].
Proof.
  assert (F : forall cs id, (forall a, a < next_addr cs -> match heap cs a with Some c => c_id c <> id | None => True end) -> (forall a, next_addr cs <= a -> heap cs a = None) -> fresh_id cs id).
  { intros cs id H1 H2 a c Hh. destruct (Nat.lt_ge_cases a (next_addr cs)) as [L|L]; [specialize (H1 a L); now rewrite Hh in H1 | rewrite H2 in Hh; [discriminate | auto]]. }
  eexists. split.
  - unfold ex_ops24. eapply cs_cons; [exact I | reflexivity |].
    eapply cs_cons; [intros a c Hh; discriminate Hh | reflexivity |].
    eapply cs_cons; [intros [|a] c Hh; cbn in Hh; [injection Hh as <-|]; discriminate | reflexivity |].
    eapply cs_cons; [eapply in_use_eval; [reflexivity | discriminate] | reflexivity |].
    eapply cs_cons; [split; [discriminate|]; split; (eapply in_use_eval; [reflexivity | discriminate]) | reflexivity |].
    eapply cs_cons; [exact I | reflexivity |]. eapply cs_cons; [exact I | reflexivity |]. apply cs_nil.
  - reflexivity.
Qed.
(** Without the discipline: assigning to a moved-from comm unregisters its successor, which is then
    unreachable. *)
Theorem C24_moved_from_refuted : exists ops cs a c, csteps lucky_policy (fun _ o => not_self_move o) ops no_comms cs /\ in_use cs a c /\
  ~ erased ops (c_id c) /\ mfind (c_id c) (registry cs) = None.
Proof.
  set (ops := [CRegTarget "t" (Some 1); CNew 0 "a"; CMove 0; CNew 0 "b"; CMoveAssign 0 2]). exists ops.
  destruct (cfold lucky_policy ops no_comms) as [cs| |] eqn:H; [|discriminate H|discriminate H]. exists cs, 1. eexists.
  split; [apply cfold_steps; auto|]. { intros cs0 o Ho. unfold ops in Ho. cbn in Ho. repeat (destruct Ho as [<-|Ho]; [exact I || discriminate|]). destruct Ho. }
  injection H as <-. split; [split; [reflexivity | discriminate]|]. split; [|reflexivity]. unfold erased, ops. cbn. intuition discriminate.
Qed.
Print Assumptions C24_moved_from_refuted.

(** C19. [listing cs name j]: [j] maps exactly the registered identifiers whose target has this name
    (all if empty) to their target name. *)
Theorem C19_comm_info : forall U (E : env U) raw, quiet E -> env_utf8 E -> user_publishes E raw ->
  forall w c m name s, accepted E w m -> typed (m_header (m_base m)) "comm_info_request" -> parents_utf8 s ->
  (m_content (m_base m) = JNull /\ name = "") \/ (exists mm, m_content (m_base m) = JObj mm /\ HistoryProofs.str_field mm "target_name" "" name) ->
  listable (k_comms s) ->
  (forall id a t, mfind id (registry (k_comms s)) = Some a -> points_to (k_comms s) a t -> utf8_text id /\ utf8_text (t_name t)) ->
  exists s' x busy mid r f tail infos, run (dispatch E w c) s = (s', x) /\ k_trace s' = (k_trace s ++ busy :: mid ++ ESend c r f :: tail)%list /\
    routed E c (m_ids m) (m_header (m_base m)) "comm_info_request" (ESend c r f) /\ Forall (fun e => ~ is_send e) mid /\ Forall (fun e => ~ is_send e) tail /\
    m_content (m_base r) = JObj [("comms", infos); ("status", JStr "ok")] /\ listing (k_comms s) name infos.
Proof.
  intros U E raw Hq Hu HU w c m name s Ha Hty Hp Hc Hl H8.
  destruct (dispatch_replies E raw Hq Hu HU w c m _ s _ Ha Hty Hp (wf_comm_info E s _ _ name Hc Hl H8)) as (s' & x & busy & mid & r & f & ab & ws & tail & R1 & R2 & R3 & R4 & R5 & R6 & (infos & R7 & R8) & (lo & hi & R9) & R10 & _).
  assert (ws = []) as -> by (destruct ws; auto; discriminate R10; discriminate).
  assert (ab = []) as -> by (inversion R9; auto). exists s', x, busy, mid, r, f, tail, infos. repeat (split; auto).
  destruct R4 as [[_ (i & -> & Hi & _)]|[-> _]]; constructor; auto. now apply status_not_send in Hi.
Qed.
Print Assumptions C19_comm_info.
(** Every kernel whose user code neither unregisters targets nor self-moves is [listable]. *)
Theorem C19_listable : forall U (E : env U), lucky (e_indet E) -> user_comms E keeps_targets ->
  forall u q msgs s', serves E msgs (fst (run (kernel_start E) (kinit u q))) s' -> listable (k_comms s').
Proof.
  intros U E Hl HC u q msgs s' Hs.
  destruct (serves_comms E keeps_targets (fun _ _ => I) (fun _ => I) (fun _ => I) HC msgs _ s' Hs) as (ops & H).
  destruct (keeps_start E keeps_targets HC (kinit u q)) as (ops0 & H0).
  assert (N : forall (cs : comms) o, keeps_targets o -> not_self_move o) by (intros cs []; cbn; auto).
  apply ok_listable.
  - eapply (reg_ok_steps _ _ _ _ _ Hl N H). eapply (reg_ok_steps _ _ _ _ _ Hl N H0). exact reg_ok_init.
  - eapply (tgt_ok_steps _ _ _ _ _ (fun _ _ X => X) H). eapply (tgt_ok_steps _ _ _ _ _ (fun _ _ X => X) H0). exact tgt_ok_init.
Qed.
Print Assumptions C19_listable.
Definition infos_of (s : kstate U0) : list json := List.concat (List.map (fun e => match shown e with Some (t, j) => if String.eqb t "comm_info_reply" then [j] else [] | None => [] end) (k_trace s)).
Definition two_comms := [(SHELL, comm_request "comm_open" "c1" [("target_name", JStr "chat")]); (SHELL, comm_request "comm_open" "c2" [("target_name", JStr "chat")])].
Example C19_ex : user_comms demo keeps_targets /\
  infos_of (send_all (two_comms ++ [(SHELL, simple "comm_info_request"); (SHELL, request_msg ["p"] "comm_info_request" (jobj [("target_name", JStr "other")]))]) demo_start) =
  [jobj [("comms", jobj [("c1", jobj [("target_name", JStr "chat")]); ("c2", jobj [("target_name", JStr "chat")])]); ("status", JStr "ok")];
   jobj [("comms", empty); ("status", JStr "ok")]].
Proof. split; [apply demo_comms; cbn; auto | vm_compute; reflexivity]. Qed.
(** Unregistering a target while one of its comms is open leaves the comm with a dangling xtarget*:
    comm_info reads it. *)
Definition unregister_demo : env U0 := {|
  e_crypto := toy; e_auth := toy_auth; e_eh := EStrict; e_kernel_id := "k1"; e_user_name := "user"; e_session_id := "s1";
  e_guid := ticks; e_now := fun _ => "2024-01-01T00:00:00Z"; e_stdin := stdin_msg; e_logger := fun _ => Ok tt;
  e_regex := fun _ => Ok (fun _ => false); e_indet := lucky_policy; e_long_id := fun s => Ok s;
  e_configure := act (ARegTarget "chat" (Some 1)) (Ret tt); e_interp := fun _ => fin (act (AUnregTarget "chat") (Ret tt)) ok_reply_json; e_split := false; e_debugger := None;
  e_callback := demo_callback; e_handler := demo_handler; e_input := fun _ _ => Ret tt |}.
Theorem C19_unregister_refuted : exists (E : env U0) msgs s s' w m, quiet E /\ env_utf8 E /\ user_comms E not_self_move /\ s = fst (run (kernel_start E) (kinit [] [])) /\
  session E msgs s s' /\ accepted E w m /\ typed (m_header (m_base m)) "comm_info_request" /\ m_content (m_base m) = JObj [] /\
  is_ub (snd (run (dispatch E w SHELL) s')) = true.
Proof.
  set (m1 := comm_request "comm_open" "c1" [("target_name", JStr "chat")]). set (m2 := simple "complete_request"). set (m3 := simple "comm_info_request").
  set (s := fst (run (kernel_start unregister_demo) (kinit [] []))).
  set (s1 := fst (run (dispatch unregister_demo (wire_of m1) SHELL) s)). set (s2 := fst (run (dispatch unregister_demo (wire_of m2) SHELL) s1)).
  exists unregister_demo, [(SHELL, wire_of m1); (SHELL, wire_of m2)], s, s2, (wire_of m3), m3.
  split; [intros l; reflexivity|]. split; [exact demo_utf8|].
  split; [constructor; cbn; auto; [intros n a mm; unfold demo_callback; destruct (Nat.eqb n 1); cbn; auto; split; auto; intros [b|e]; cbn; auto 10
    | intros n mm; unfold demo_handler; destruct (Nat.eqb n 7); cbn; auto; split; auto; intros [[|b l]|e]; cbn; auto]|].
  split; [reflexivity|]. split; [|split; [vm_compute; reflexivity|]; split; [eexists; split; reflexivity|]; split; [reflexivity | vm_compute; reflexivity]].
  eapply se_cons with (s1 := s1); [vm_compute; reflexivity|]. eapply se_cons with (s1 := s2); [vm_compute; reflexivity | constructor].
Qed.
Print Assumptions C19_unregister_refuted.

(** C25. [names_comm content id]: the content is an object whose comm_id is [id] (at most 55 bytes).
    [user_end E c h x r tail]: the handler ended with [x], and the handling accordingly. *)
Theorem C25_message : forall U (E : env U) raw, quiet E -> env_utf8 E -> user_publishes E raw ->
  forall w c m id a o n s, accepted E w m -> typed (m_header (m_base m)) "comm_msg" -> names_comm (m_content (m_base m)) id ->
  mfind id (registry (k_comms s)) = Some a -> heap (k_comms s) a = Some o -> c_message o = Some n ->
  let h := m_header (m_base m) in
  exists s0 s1 x s' r busy out tail, run (dispatch E w c) s = (s', r) /\
    k_trace s' = (k_trace s ++ busy :: EHandler n m :: out ++ tail)%list /\ status_event E "busy" c h busy /\ Forall (user_output raw) out /\
    user_end E c h x r tail /\ k_comms s0 = k_comms s /\ run (embed E (e_handler E n m)) s0 = (s1, x) /\ k_comms s' = k_comms s1.
Proof. exact @comm_msg_handled. Qed.
Print Assumptions C25_message.
(** An unknown comm. [reported E id]: the message of the exception, 25 bytes longer than the identifier, has at most
    55 bytes, or the library deals with a longer one. *)
Theorem C25_unknown : forall U (E : env U), quiet E -> env_utf8 E ->
  forall w c m id s, reported E id -> accepted E w m -> typed (m_header (m_base m)) "comm_msg" \/ typed (m_header (m_base m)) "comm_close" -> names_comm (m_content (m_base m)) id ->
  mfind id (registry (k_comms s)) = None -> ignored E w c m s.
Proof. exact @comm_msg_unknown. Qed.
Print Assumptions C25_unknown.
Theorem C25_no_handler : forall U (E : env U), quiet E -> env_utf8 E ->
  forall w c m id a o s, accepted E w m -> typed (m_header (m_base m)) "comm_msg" -> names_comm (m_content (m_base m)) id ->
  mfind id (registry (k_comms s)) = Some a -> heap (k_comms s) a = Some o -> c_message o = None -> ignored E w c m s.
Proof. exact @comm_msg_no_handler. Qed.
Print Assumptions C25_no_handler.
(** A close handler that throws leaves the comm registered ([is_ok x] is false). *)
Theorem C25_close : forall U (E : env U) raw, quiet E -> env_utf8 E -> user_publishes E raw ->
  forall w c m id a o s, accepted E w m -> typed (m_header (m_base m)) "comm_close" -> names_comm (m_content (m_base m)) id ->
  mfind id (registry (k_comms s)) = Some a -> heap (k_comms s) a = Some o ->
  let h := m_header (m_base m) in
  exists s0 s1 x s' r busy evs tail, run (dispatch E w c) s = (s', r) /\
    k_trace s' = (k_trace s ++ busy :: evs ++ tail)%list /\ status_event E "busy" c h busy /\ user_end E c h x r tail /\
    k_comms s0 = k_comms s /\ handler_run E raw (c_close o) m evs s0 s1 x /\
    k_comms s' = (if is_ok x then set_registry (mdel id (registry (k_comms s1))) (k_comms s1) else k_comms s1).
Proof. exact @comm_close_handled. Qed.
Print Assumptions C25_close.
Theorem C25_open_unknown : forall U (E : env U), quiet E -> env_utf8 E ->
  forall w c m name s, accepted E w m -> typed (m_header (m_base m)) "comm_open" -> names_target (m_content (m_base m)) name ->
  mfind name (targets (k_comms s)) = None -> ignored E w c m s.
Proof. exact @comm_open_unknown. Qed.
Print Assumptions C25_open_unknown.
(** [callback_comms p id cs cs0 a]: the callback starts with a new comm at [a], registered under [id];
    [s1] is the state when it ends. *)
Theorem C25_open : forall U (E : env U) raw, quiet E -> env_utf8 E -> user_publishes E raw ->
  forall w c m name id p t cb s, accepted E w m -> typed (m_header (m_base m)) "comm_open" -> names_target (m_content (m_base m)) name -> names_comm (m_content (m_base m)) id ->
  mfind name (targets (k_comms s)) = Some (p, t) -> NoDup (List.map (fun e => fst (snd e)) (targets (k_comms s))) -> t_manager t = true -> t_callback t = Some cb ->
  lucky (e_indet E) -> msorted (registry (k_comms s)) = true ->
  let h := m_header (m_base m) in
  exists s0 s1 x busy out a, status_event E "busy" c h busy /\ callback_comms p id (k_comms s) (k_comms s0) a /\
    run (embed E (e_callback E cb a m)) s0 = (s1, x) /\ Forall (user_output raw) out /\
    k_trace s1 = (k_trace s ++ busy :: ECallback cb a m :: out)%list /\
    ((exists e, x = Exn (Std e)) \/ x = Ok tt ->
     forall o, heap (k_comms s1) a = Some o ->
     c_moved o = Init true \/ (exists t', deref_target (c_target o) (k_comms s1) = Ok t' /\ t_manager t' = true) ->
     exists s' idle, run (dispatch E w c) s = (s', Ok tt) /\ k_trace s' = (k_trace s1 ++ [idle])%list /\ status_event E "idle" c h idle /\
       heap (k_comms s') a = None /\ (forall b, b <> a -> heap (k_comms s') b = heap (k_comms s1) b) /\
       (c_moved o = Init true -> registry (k_comms s') = registry (k_comms s1)) /\
       (c_moved o <> Init true -> mfind (c_id o) (registry (k_comms s')) = None /\
          forall i, i <> c_id o -> mfind i (registry (k_comms s')) = mfind i (registry (k_comms s1)))).
Proof. exact @comm_open_end. Qed.
Print Assumptions C25_open.
(** The handlers these theorems speak of are the ones user code gave to the comm. *)
Definition handler (k : slot) (c : comm) : option nat := match k with OnMessage => c_message c | OnClose => c_close c end.
Definition handlers_ok (k : slot) (past : list cop) (cs : comms) : Prop :=
  next_addr cs = made past /\ (forall a, made past <= a -> heap cs a = None) /\
  forall a c, heap cs a = Some c -> forall h, holds k past a h <-> h = handler k c.
Definition untouched (k : slot) (o : cop) (a : nat) : Prop :=
  (forall h, o <> sets k a h) /\ o <> CMove a /\ (forall b, o <> CMoveAssign a b) /\ (forall d, o <> CMoveAssign d a).
Lemma holds_kept k o past a h : untouched k o a -> (constructs o = true -> a <> made past) -> holds k (o :: past) a h <-> holds k past a h.
Proof.
  intros (H1 & H2 & H3 & H4) H5. split; [|intros H; now apply ho_kept].
  intros H. inversion H; subst; auto; exfalso; solve [eapply H5; reflexivity | eapply H1; reflexivity | eapply H2; reflexivity | eapply H3; reflexivity | eapply H4; reflexivity].
Qed.
Ltac differs := solve [discriminate | let X := fresh in intro X; inversion X; subst; auto; congruence].
Ltac untouch k := split; [intros ?; destruct k; differs|]; split; [differs|]; split; intros ?; differs.
Ltac untouch_it := split; [intros ?; cbn; differs|]; split; [differs|]; split; intros ?; differs.
Lemma handlers_same k o past cs cs' : handlers_ok k past cs -> constructs o = false -> next_addr cs' = next_addr cs ->
  (forall a, heap cs a = None -> heap cs' a = None) ->
  (forall a c, heap cs' a = Some c -> (forall h, holds k (o :: past) a h <-> h = handler k c) \/ (untouched k o a /\ exists c0, heap cs a = Some c0 /\ handler k c = handler k c0)) -> handlers_ok k (o :: past) cs'.
Proof.
  intros (N & F & HH) C N' HN H. unfold handlers_ok. assert (made (o :: past) = made past) as -> by (unfold made; cbn [filter]; now rewrite C). split; [congruence|]. split; [intros a La; apply HN, F, La|].
  intros a c Q. destruct (H a c Q) as [X|(T & c0 & Q0 & E)]; auto. intros h. rewrite E, holds_kept, (HH a c0 Q0); [reflexivity|auto|congruence].
Qed.
Lemma handlers_made k o past cs cs' c : handlers_ok k past cs -> constructs o = true -> next_addr cs' = S (next_addr cs) -> heap cs' (next_addr cs) = Some c ->
  (forall h, holds k (o :: past) (made past) h <-> h = handler k c) -> (forall a, a <> next_addr cs -> heap cs a = None -> heap cs' a = None) ->
  (forall a c, a <> next_addr cs -> heap cs' a = Some c -> (forall h, holds k (o :: past) a h <-> h = handler k c) \/ (untouched k o a /\ exists c0, heap cs a = Some c0 /\ handler k c = handler k c0)) -> handlers_ok k (o :: past) cs'.
Proof.
  intros (N & F & HH) C N' Hc Hm HN H. unfold handlers_ok. assert (made (o :: past) = S (made past)) as -> by (unfold made; cbn [filter]; now rewrite C).
  rewrite N in *. split; [congruence|]. split; [intros a La; apply HN; [lia|apply F; lia]|].
  intros a x Q. destruct (Nat.eq_dec a (made past)) as [->|Na]; [rewrite Hc in Q; injection Q as <-; exact Hm|].
  destruct (H a x Na Q) as [X|(T & c0 & Q0 & E)]; auto. intros h. rewrite E, holds_kept, (HH a c0 Q0); [reflexivity|auto|auto].
Qed.
Ltac last := let X := fresh in intro X; inversion X; subst; auto; exfalso; (match goal with H : _ = true -> made ?p <> made ?p |- _ => now apply H | H : forall h, ?o <> sets ?k ?a h |- _ => solve [eapply H; reflexivity | destruct k; eapply H; reflexivity]
   | H : CMove ?a <> CMove ?a |- _ => now apply H | H : forall b, CMoveAssign ?d ?b' <> CMoveAssign ?d b |- _ => eapply H; reflexivity | H : forall d, CMoveAssign ?d' ?b <> CMoveAssign d ?b |- _ => eapply H; reflexivity | _ => congruence end).
Lemma handlers_step k pol o past cs cs' : cstep pol o cs = Ok cs' -> handlers_ok k past cs -> handlers_ok k (o :: past) cs'.
Proof.
  intros Hst HO. pose proof HO as (N & F & HH).
  assert (L : forall a c, heap cs a = Some c -> a <> made past). { intros a c Q ->. now rewrite F in Q. }
  destruct o as [p id|a|a id|d b|d b id|a|a g|a g|id|nm|nm cb|nm]; cbn [cstep] in Hst; revert Hst.
  - unfold comm_new. destruct (register_comm _ _ _ _) as [x| |] eqn:Hr; cbn [bind]; try discriminate. intros [= <-]. apply register_inv in Hr as ->.
    eapply handlers_made; [exact HO|reflexivity|reflexivity|cbn; now rewrite Nat.eqb_refl| | |]; cbn.
    + intros h. split; [destruct k; last|intros ->; destruct k; apply ho_new].
    + intros a Na. apply Nat.eqb_neq in Na. now rewrite Na.
    + intros a c Na. apply Nat.eqb_neq in Na. rewrite Na. intros Q. right. split; [untouch k|eauto].
  - unfold comm_move. destruct (deref a cs) as [c| |] eqn:Hd; cbn [bind]; try discriminate. apply deref_inv in Hd.
    destruct (register_comm _ _ _ _) as [x| |] eqn:Hr; cbn [bind]; try discriminate. intros [= <-]. apply register_inv in Hr as ->.
    pose proof (L _ _ Hd) as La. eapply handlers_made; [exact HO|reflexivity|reflexivity|cbn; rewrite Nat.eqb_refl; destruct (Nat.eqb_spec (next_addr cs) a); [congruence|reflexivity]| | |]; cbn.
    + intros h. split; [|intros ->; apply ho_moved; apply (HH a c Hd); destruct k; reflexivity].
      intros X. assert (holds k past a h) as Y by (inversion X; subst; solve [auto|congruence|destruct k; discriminate|exfalso; match goal with H : _ = true -> made ?p <> made ?p |- _ => now apply H end]).
      apply (HH a c Hd) in Y. destruct k; exact Y.
    + intros b Nb. apply Nat.eqb_neq in Nb. rewrite Nb. destruct (Nat.eqb_spec b a) as [->|]; congruence.
    + intros b x Nb. apply Nat.eqb_neq in Nb. rewrite Nb. destruct (Nat.eqb_spec b a) as [->|Nab].
      * intros [= <-]. left. intros h. split; [destruct k; last|intros ->; destruct k; now apply ho_left].
      * intros Q. right. split; [untouch k|eauto].
  - unfold comm_copy. destruct (deref a cs) as [c| |] eqn:Hd; cbn [bind]; try discriminate. apply deref_inv in Hd.
    destruct (register_comm _ _ _ _) as [x| |] eqn:Hr; cbn [bind]; try discriminate. intros [= <-]. apply register_inv in Hr as ->.
    eapply handlers_made; [exact HO|reflexivity|reflexivity|cbn; now rewrite Nat.eqb_refl| | |]; cbn.
    + intros h. split; [destruct k; last|intros ->; destruct k; apply ho_copy].
    + intros b Na. apply Nat.eqb_neq in Na. now rewrite Na.
    + intros b x Na. apply Nat.eqb_neq in Na. rewrite Na. intros Q. right. split; [untouch k|eauto].
  - unfold comm_move_assign. destruct (deref d cs) as [cd| |] eqn:Hd; cbn [bind]; try discriminate. apply deref_inv in Hd.
    destruct (deref b cs) as [c| |] eqn:Hs; cbn [bind]; try discriminate. apply deref_inv in Hs.
    destruct (unregister_comm _ _ _) as [x| |] eqn:Hu; cbn [bind]; try discriminate. apply unregister_inv in Hu as ->.
    intros Hr. apply register_inv in Hr as ->. eapply handlers_same; [exact HO|reflexivity|reflexivity| |]; cbn.
    + intros e. destruct (Nat.eqb_spec e b) as [->|]; [congruence|]. destruct (Nat.eqb_spec e d) as [->|]; congruence.
    + intros e x. destruct (Nat.eqb_spec e b) as [->|Neb]; [|destruct (Nat.eqb_spec e d) as [->|Ned]].
      * intros [= <-]. left. intros h. destruct (Nat.eqb_spec d b) as [->|Ndb].
        -- split; [|intros ->; apply ho_assigned; apply (HH b c Hs); destruct k; reflexivity].
           intros X. assert (holds k past b h) as Y by (inversion X; subst; solve [auto|congruence|destruct k; discriminate]). apply (HH b c Hs) in Y. destruct k; exact Y.
        -- split; [destruct k; last|intros ->; destruct k; now apply ho_taken; congruence].
      * intros [= <-]. left. intros h. split; [|intros ->; apply ho_assigned; apply (HH b c Hs); destruct k; reflexivity].
        intros X. assert (holds k past b h) as Y. { inversion X; subst; try solve [auto|congruence|destruct k; discriminate]. }
        apply (HH b c Hs) in Y. destruct k; exact Y.
      * intros Q. right. split; [untouch k|eauto].
  - unfold comm_copy_assign. destruct (deref d cs) as [cd| |] eqn:Hd; cbn [bind]; try discriminate. apply deref_inv in Hd.
    destruct (deref b cs) as [c| |] eqn:Hs; cbn [bind]; try discriminate. apply deref_inv in Hs.
    destruct (unregister_comm _ _ _) as [x| |] eqn:Hu; cbn [bind]; try discriminate. apply unregister_inv in Hu as ->.
    intros Hr. apply register_inv in Hr as ->. eapply handlers_same; [exact HO|reflexivity|reflexivity| |]; cbn.
    + intros e. destruct (Nat.eqb_spec e d) as [->|]; congruence.
    + intros e x. destruct (Nat.eqb_spec e d) as [->|Ned].
      * intros [= <-]. right. split; [untouch k|]. exists cd. split; [exact Hd|destruct k; reflexivity].
      * intros Q. right. split; [untouch k|eauto].
  - unfold comm_destroy. destruct (deref a cs) as [c| |] eqn:Hd; cbn [bind]; try discriminate. apply deref_inv in Hd.
    destruct (read_flag pol a (c_moved c)) as [m| |] eqn:Hm; cbn [bind]; try discriminate.
    assert (G : forall cs1, heap cs1 = heap cs -> next_addr cs1 = next_addr cs -> handlers_ok k (CDestroy a :: past) (set_heap a None cs1)).
    { intros cs1 H1 H2. eapply handlers_same; [exact HO|reflexivity|exact H2| |]; cbn; rewrite H1; intros e.
      - destruct (Nat.eqb e a); auto.
      - intros x. destruct (Nat.eqb e a); [discriminate|]. intros Q. right. split; [untouch k|eauto]. }
    destruct m; cbn [bind]; [intros [= <-]; now apply G|].
    destruct (unregister_comm _ _ _) as [x| |] eqn:Hu; cbn [bind]; try discriminate. apply unregister_inv in Hu as ->. intros [= <-]. now apply G.
  - unfold comm_on_message. destruct (deref a cs) as [c| |] eqn:Hd; cbn [bind]; try discriminate. apply deref_inv in Hd. intros [= <-].
    eapply handlers_same; [exact HO|reflexivity|reflexivity| |]; cbn; intros e; [destruct (Nat.eqb_spec e a) as [->|]; congruence|].
    intros x. destruct (Nat.eqb_spec e a) as [->|Nea]; [|intros Q; right; split; [untouch k|eauto]].
    intros [= <-]. destruct k; [left|right; split; [untouch_it|exists c; now split]].
    intros h. split; [|intros ->; exact (ho_given OnMessage past a g)]. intros X. inversion X; subst; auto. exfalso. match goal with H : forall h, _ <> _ |- _ => solve [eapply H; reflexivity] end.
  - unfold comm_on_close. destruct (deref a cs) as [c| |] eqn:Hd; cbn [bind]; try discriminate. apply deref_inv in Hd. intros [= <-].
    eapply handlers_same; [exact HO|reflexivity|reflexivity| |]; cbn; intros e; [destruct (Nat.eqb_spec e a) as [->|]; congruence|].
    intros x. destruct (Nat.eqb_spec e a) as [->|Nea]; [|intros Q; right; split; [untouch k|eauto]].
    intros [= <-]. destruct k; [right; split; [untouch_it|exists c; now split]|left].
    intros h. split; [|intros ->; exact (ho_given OnClose past a g)]. intros X. inversion X; subst; auto. exfalso. match goal with H : forall h, _ <> _ |- _ => solve [eapply H; reflexivity] end.
  - intros [= <-]. eapply handlers_same; [exact HO|reflexivity|reflexivity|auto|]. cbn. intros e x Q. right. split; [untouch k|eauto].
  - intros [= <-]. eapply handlers_same; [exact HO|reflexivity| | |]; unfold target_node; destruct (mfind nm (targets cs)) as [[n t]|]; auto; cbn; intros e x Q; right; (split; [untouch k|eauto]).
  - intros [= <-]. eapply handlers_same; [exact HO|reflexivity| | |]; unfold register_comm_target, target_node; destruct (mfind nm (targets cs)) as [[n t]|]; auto; cbn; intros e x Q; right; (split; [untouch k|eauto]).
  - intros [= <-]. eapply handlers_same; [exact HO|reflexivity|reflexivity|auto|]. cbn. intros e x Q. right. split; [untouch k|eauto].
Qed.
Theorem C25_handlers : forall k pol ops cs, csteps pol (fun _ _ => True) ops no_comms cs ->
  forall a c, heap cs a = Some c -> forall h, holds k (rev ops) a h <-> h = handler k c.
Proof.
  intros k pol ops cs H. assert (G : forall past cs0, handlers_ok k past cs0 -> csteps pol (fun _ _ => True) ops cs0 cs -> handlers_ok k (rev ops ++ past) cs).
  { clear H. induction ops as [|o ops IH]; intros past cs0 H0 H; inversion H; subst; [exact H0|]. cbn [rev]. rewrite <- app_assoc. eapply IH; [|eassumption]. eapply handlers_step; eauto. }
  destruct (G [] no_comms) as (_ & _ & X); [|exact H|now rewrite app_nil_r in X]. split; [reflexivity|]. split; [reflexivity|discriminate].
Qed.
Print Assumptions C25_handlers.
Definition handler_ops : list cop := [CRegTarget "t" (Some 1); CNew 0 "a"; COnMessage 0 (Some 5); COnClose 0 (Some 6); CMove 0].
Example C25_handlers_ex : exists cs c, csteps lucky_policy (fun _ _ => True) handler_ops no_comms cs /\ heap cs 1 = Some c /\
  handler OnMessage c = Some 5 /\ handler OnClose c = Some 6 /\ holds OnMessage (rev handler_ops) 1 (Some 5) /\ holds OnClose (rev handler_ops) 1 (Some 6).
Proof.
  assert (X : exists cs, csteps lucky_policy (fun _ _ => True) handler_ops no_comms cs /\ heap cs 1 = Some {| c_close := Some 6; c_message := Some 5; c_target := 0; c_id := "a"; c_moved := Init false |}).
  { eexists. split; [unfold handler_ops; repeat (eapply cs_cons; [exact I|reflexivity|]); apply cs_nil|reflexivity]. }
  destruct X as (cs & S & H). exists cs. eexists. split; [exact S|]. split; [exact H|]. split; [reflexivity|]. split; [reflexivity|].
  split; [exact (proj2 (C25_handlers OnMessage _ _ _ S _ _ H (Some 5)) eq_refl)|exact (proj2 (C25_handlers OnClose _ _ _ S _ _ H (Some 6)) eq_refl)].
Qed.
Example C25_ex : let s := send_all (two_comms ++ [(SHELL, comm_request "comm_open" "c3" [("target_name", JStr "drop")]); (SHELL, comm_request "comm_open" "c4" [("target_name", JStr "none")]);
      (SHELL, comm_request "comm_msg" "c2" []); (SHELL, comm_request "comm_msg" "c9" []); (SHELL, comm_request "comm_close" "c1" []); (SHELL, comm_request "comm_msg" "c1" [])]) demo_start in
  names s = ["starting"; "busy"; "callback"; "idle"; "busy"; "callback"; "idle"; "busy"; "callback"; "idle"; "busy"; "idle";
             "busy"; "handler"; "comm_msg"; "idle"; "busy"; "idle"; "busy"; "handler"; "idle"; "busy"; "idle"] /\
  List.map fst (registry (k_comms s)) = ["c2"].
Proof. vm_compute. auto. Qed.
Example C25_hyps_ex : let s := send_all two_comms demo_start in let m := comm_request "comm_msg" "c2" [] in
  accepted demo (wire_of m) m /\ typed (m_header (m_base m)) "comm_msg" /\ names_comm (m_content (m_base m)) "c2" /\
  exists a o, mfind "c2" (registry (k_comms s)) = Some a /\ heap (k_comms s) a = Some o /\ c_message o = Some 7 /\ c_close o = Some 8 /\
  exists p t, mfind "chat" (targets (k_comms s)) = Some (p, t) /\ t_manager t = true /\ t_callback t = Some 1.
Proof.
  cbv zeta. split; [vm_compute; reflexivity|]. split; [eexists; split; reflexivity|]. split; [eexists; split; [reflexivity|]; split; [reflexivity | cbn; lia]|].
  eexists. eexists. split; [vm_compute; reflexivity|]. split; [vm_compute; reflexivity|]. split; [reflexivity|]. split; [reflexivity|].
  eexists. eexists. split; [vm_compute; reflexivity|]. split; reflexivity.
Qed.
(** The identifiers that xeus makes have 32 bytes: for those the message of the exception has 57 bytes, and a
    library that does not check the size (xtl's default) writes past the end of the string. *)
Definition unchecked : env U0 := {|
  e_crypto := toy; e_auth := toy_auth; e_eh := EStrict; e_kernel_id := "k1"; e_user_name := "user"; e_session_id := "s1";
  e_guid := ticks; e_now := fun _ => "2024-01-01T00:00:00Z"; e_stdin := stdin_msg; e_logger := fun _ => Ok tt;
  e_regex := fun _ => Ok (fun _ => false); e_indet := lucky_policy; e_long_id := fun s => UB "write past the end of an xfixed_string";
  e_configure := Ret tt; e_interp := fun _ => Ret ok_reply_json; e_split := false; e_debugger := None;
  e_callback := demo_callback; e_handler := demo_handler; e_input := fun _ _ => Ret tt |}.
Theorem C25_unknown_refuted : exists (E : env U0) w m id s, quiet E /\ env_utf8 E /\ s = fst (run (kernel_start E) (kinit [] [])) /\
  accepted E w m /\ typed (m_header (m_base m)) "comm_msg" /\ names_comm (m_content (m_base m)) id /\ slen id = 32 /\
  mfind id (registry (k_comms s)) = None /\ is_ub (snd (run (dispatch E w SHELL) s)) = true.
Proof.
  set (id := "0123456789abcdef0123456789abcdef"). set (m := comm_request "comm_msg" id []).
  exists unchecked, (wire_of m), m, id, (fst (run (kernel_start unchecked) (kinit [] []))).
  split; [intros l; reflexivity|]. split; [exact demo_utf8|]. split; [reflexivity|]. split; [vm_compute; reflexivity|]. split; [eexists; split; reflexivity|].
  split; [eexists; split; [reflexivity|]; split; [reflexivity | cbn; lia]|]. split; [reflexivity|]. split; vm_compute; reflexivity.
Qed.
Print Assumptions C25_unknown_refuted.
Example C25_unknown_ex : let s := send_all two_comms demo_start in let m := comm_request "comm_close" "c9" [] in
  reported demo "c9" /\ accepted demo (wire_of m) m /\ typed (m_header (m_base m)) "comm_close" /\ names_comm (m_content (m_base m)) "c9" /\ mfind "c9" (registry (k_comms s)) = None.
Proof.
  cbv zeta. split; [left; cbn; lia|]. split; [vm_compute; reflexivity|]. split; [eexists; split; reflexivity|]. split; [eexists; split; [reflexivity|]; split; [reflexivity | cbn; lia]|].
  vm_compute; reflexivity.
Qed.
(** Only an exception derived from std::exception is contained, and a close handler that throws keeps
    the comm registered. *)
Definition close_throws : env U0 := {|
  e_crypto := toy; e_auth := toy_auth; e_eh := EStrict; e_kernel_id := "k1"; e_user_name := "user"; e_session_id := "s1";
  e_guid := ticks; e_now := fun _ => "2024-01-01T00:00:00Z"; e_stdin := stdin_msg; e_logger := fun _ => Ok tt;
  e_regex := fun _ => Ok (fun _ => false); e_indet := lucky_policy; e_long_id := fun s => Ok s;
  e_configure := act (ARegTarget "chat" (Some 1)) (Ret tt); e_interp := fun _ => Ret ok_reply_json; e_split := false; e_debugger := None;
  e_callback := demo_callback; e_handler := fun _ _ => Throw (Std "no"); e_input := fun _ _ => Ret tt |}.
Theorem C25_close_throws_refuted : exists (E : env U0) msgs s s', quiet E /\ env_utf8 E /\ s = fst (run (kernel_start E) (kinit [] [])) /\
  session E msgs s s' /\ msgs = [(SHELL, wire_of (comm_request "comm_open" "c1" [("target_name", JStr "chat")])); (SHELL, wire_of (comm_request "comm_close" "c1" []))] /\
  mfind "c1" (registry (k_comms s')) = Some 1.
Proof.
  set (m1 := comm_request "comm_open" "c1" [("target_name", JStr "chat")]). set (m2 := comm_request "comm_close" "c1" []).
  set (s := fst (run (kernel_start close_throws) (kinit [] []))).
  set (s1 := fst (run (dispatch close_throws (wire_of m1) SHELL) s)). set (s2 := fst (run (dispatch close_throws (wire_of m2) SHELL) s1)).
  exists close_throws, [(SHELL, wire_of m1); (SHELL, wire_of m2)], s, s2.
  split; [intros l; reflexivity|]. split; [exact demo_utf8|]. split; [reflexivity|]. split; [|split; [reflexivity | vm_compute; reflexivity]].
  eapply se_cons with (s1 := s1); [vm_compute; reflexivity|]. eapply se_cons with (s1 := s2); [vm_compute; reflexivity | constructor].
Qed.
Print Assumptions C25_close_throws_refuted.

(** C26. [published_once E p ty md ct b s]: [p] publishes exactly one message with this type, metadata,
    content and buffers; or the strict serialization throws and nothing is published, in which case one
    of them is not UTF-8. *)
Theorem C26_outgoing : forall U (E : env U), quiet E -> env_utf8 E ->
  forall a c t md data b s, heap (k_comms s) a = Some c -> deref_target (c_target c) (k_comms s) = Ok t -> t_manager t = true ->
  published_once E (comm_open_msg E a md data b) "comm_open" md (JObj [("comm_id", JStr (c_id c)); ("data", data); ("target_name", JStr (t_name t))]) b s /\
  published_once E (comm_send_msg E a md data b) "comm_msg" md (JObj [("comm_id", JStr (c_id c)); ("data", data)]) b s /\
  published_once E (comm_close_msg E a md data b) "comm_close" md (JObj [("comm_id", JStr (c_id c)); ("data", data)]) b s.
Proof. exact @outgoing_comm. Qed.
Print Assumptions C26_outgoing.
Example C26_ex : let s := send_all two_comms demo_start in
  exists c t, heap (k_comms s) 1 = Some c /\ deref_target (c_target c) (k_comms s) = Ok t /\ t_manager t = true /\ c_id c = "c1" /\
  let s' := fst (run (comm_open_msg demo 1 (jobj [("a", JInt 1)]) (JArr [JInt 2]) ["x"; "y"]) s) in
  match rev (k_trace s') with
  | EPublish _ m _ :: _ => m_content (m_pbase m) = jobj [("comm_id", JStr "c1"); ("data", JArr [JInt 2]); ("target_name", JStr "chat")] /\
      m_metadata (m_pbase m) = jobj [("a", JInt 1)] /\ m_buffers (m_pbase m) = ["x"; "y"]
  | _ => False
  end.
Proof. cbv zeta. eexists. eexists. split; [vm_compute; reflexivity|]. split; [vm_compute; reflexivity|]. split; [reflexivity|]. split; [reflexivity|]. vm_compute. auto. Qed.
(** A comm whose target was unregistered cannot be used any more: undefined behaviour. *)
Theorem C26_unregistered_refuted : forall U (E : env U) a c md data b s, heap (k_comms s) a = Some c -> (forall n t, ~ In (n, (c_target c, t)) (targets (k_comms s))) ->
  is_ub (snd (run (comm_send_msg E a md data b) s)) = true /\ is_ub (snd (run (comm_open_msg E a md data b) s)) = true /\ is_ub (snd (run (comm_close_msg E a md data b) s)) = true.
Proof.
  intros U E a c md data b s Hh Hn.
  assert (Hd : deref_target (c_target c) (k_comms s) = UB "dangling xtarget*").
  { unfold deref_target, node_of. destruct (find _ _) as [[n [p t]]|] eqn:Hf; [|reflexivity]. apply find_some in Hf as [Hi Hp]. cbn in Hp. apply Nat.eqb_eq in Hp. subst p.
    exfalso. exact (Hn n t Hi). }
  assert (Hl : forall A (f : comms -> res A) s, run (look_comms (U := U) f) s = (s, f (k_comms s))).
  { intros A f s0. unfold look_comms. rewrite run_bind, run_kdo. cbn [kstep fst snd]. rewrite run_res. now destruct (f (k_comms s0)). }
  assert (Ha : deref a (k_comms s) = Ok c) by (unfold deref; now rewrite Hh).
  unfold comm_send_msg, comm_open_msg, comm_close_msg, target_publish.
  rewrite !run_bind, !Hl, Ha. cbn beta iota. rewrite !run_bind, !Hl, Hd. auto.
Qed.
Print Assumptions C26_unregistered_refuted.
