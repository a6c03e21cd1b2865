(** The split servers: replies of a thread, and identifiers of all messages sent. *)
From Verif Require Import Base BaseFacts Json JsonText Utf8 Auth Message WireSpec History Comm Tree Kernel KernelSpec KernelRun KernelExec KernelLemmas KernelSession Server Split SplitSpec Threads SplitProofs SequentialSpec SequentialProofs SplitStreamSpec SplitStream.

(** ** Replies *)
Section Replies.
  Context {U : Type} (v : variant) (E : env U) (raw : string -> Prop) (HU : user_publishes E raw) (Hraw : ~ raw "status").
  Lemma aborted_answers ws ab : aborted E ws ab -> exists xs, sub xs (List.map (pair SHELL) ws) /\ Forall2 (answers E) xs (sends ab).
  Proof.
    induction 1 as [|w ws evs Hr H (xs & A & B)|w ws evs m ty rty r f id Ha Hty Hab Hh Hi Hp Hm Hc Hb Hf H (xs & A & B)].
    - exists []. split; constructor.
    - exists xs. split; auto. now apply sub_skip.
    - exists ((SHELL, w) :: xs). split; [now apply sub_take|]. cbn [sends filter]. constructor; auto.
      exists m, ty, r, f, id, rty. cbn [fst snd]. auto 12.
  Qed.
  Lemma segment_answers c w l evs ok : segment E c w l evs ok -> exists xs, sub xs ((c, w) :: List.map (pair SHELL) l) /\ Forall2 (answers E) xs (sends evs).
  Proof.
    induction 1 as [|H|m busy mid Ha B Wb F|m ty busy mid rep ab ws l Ha Hty B Wb F Wr R AB Hl Hn|m ty l evs idle H (xs & A & C) Hne Ha Hty B Wi].
    - exists []. split; [apply sub_empty|constructor].
    - exists []. split; [apply sub_empty|constructor].
    - exists []. split; [apply sub_empty|]. rewrite sends_none; [constructor|]. constructor; [eapply status_not_send; eauto|].
      eapply Forall_impl; [|exact F]. intros e X. apply X.
    - apply aborted_answers in AB as (xs & X1 & X2).
      assert (X3 : sub xs (List.map (pair SHELL) l)).
      { destruct Hl as [->|[x ->]]; auto. rewrite map_app, <- (app_nil_r xs). apply sub_app; auto. apply sub_empty. }
      change (busy :: mid ++ rep :: ab)%list with ([busy] ++ mid ++ [rep] ++ ab)%list. rewrite !sends_app, (sends_none [busy]), (sends_none mid).
      2:{ eapply Forall_impl; [|exact F]. intros e X. apply X. }
      2:{ constructor; [eapply status_not_send; eauto|constructor]. }
      destruct R as (r & f & id & rty & -> & Hrn & Hi & Hp & Hh & Hb).
      exists ((c, w) :: xs). split; [now apply sub_take|]. cbn [sends filter app]. constructor; auto.
      exists m, ty, r, f, id, rty. cbn [fst snd]. auto 12.
    - exists xs. split; auto. rewrite sends_app, (sends_none [idle]), app_nil_r; auto. constructor; [eapply status_not_send; eauto|constructor].
  Qed.
  Lemma starts_dec c l : starts c l \/ ~ starts c l.
  Proof. destruct l; cbn; auto; destruct c; try destruct c0; auto; right; discriminate. Qed.
  Lemma find_start c ls : in_same c ls \/ exists l1 x l2, ls = (l1 ++ x :: l2)%list /\ starts c x /\ in_same c l2.
  Proof.
    induction ls as [|l ls IH] using rev_ind; [left; constructor|]. destruct (starts_dec c l) as [H|H].
    - right. exists ls, l, []. repeat split; auto. constructor.
    - destruct IH as [IH|(l1 & x & l2 & -> & A & B)]; [left; apply Forall_app; auto|right].
      exists l1, x, (l2 ++ [l])%list. rewrite <- app_assoc. repeat split; auto. apply Forall_app; auto.
  Qed.
  Lemma received_app c a b : received_by c (a ++ b) = (received_by c a ++ received_by c b)%list.
  Proof. apply flat_map_app. Qed.
  Lemma received_tooks c l : in_same c l -> received_by c l = List.map (pair SHELL) (tooks c l).
  Proof.
    induction 1 as [|x l Hx _ IH]; auto. unfold received_by, tooks in *. cbn [flat_map]. rewrite map_app, IH. f_equal.
    destruct x; auto; cbn in Hx.
    - destruct (chan_eqb c c0) eqn:X; auto. apply chan_eqb_eq in X. now symmetry in X.
    - destruct (chan_eqb c c0); auto.
  Qed.
  Lemma thread_replies k0 start c n : forall ls s, List.length ls <= n -> yrun v (fun c w => dispatch E w c) (dispatch_internal E) (y_init k0 start) ls s ->
    exists xs, sub xs (received_by c ls) /\ Forall2 (answers E) xs (sends (events c ls)).
  Proof.
    induction n as [|n IH]; intros ls s Hn Hr.
    { destruct ls; [|cbn in Hn; lia]. exists []. split; constructor. }
    destruct (find_start c ls) as [H|(l1 & x & l2 & Hl & Hx & H2)].
    - destruct (thread_before v E raw HU Hraw _ _ _ _ c Hr H) as [A B]. rewrite received_tooks, A, B by exact H. exists []. split; constructor.
    - destruct (yrun_app _ _ _ _ _ _ Hr l1 (x :: l2) Hl) as (s1 & R1 & _).
      destruct (IH l1 s1) as (xs & A & B); [rewrite Hl, app_length in Hn; cbn in Hn; lia|exact R1|].
      destruct x; cbn in Hx; try contradiction; subst c.
      + destruct (thread_segment v E raw HU Hraw _ _ _ _ _ _ _ _ Hr Hl H2) as [ok Sg]. apply segment_answers in Sg as (ys & C & D).
        exists (xs ++ ys)%list. rewrite Hl, received_app, events_app, sends_app. split.
        * apply sub_app; auto. change (received_by c0 (YHand c0 w :: l2)) with ((if chan_eqb c0 c0 then [(c0, w)] else []) ++ received_by c0 l2)%list.
          rewrite chan_eqb_refl, received_tooks by exact H2. exact C.
        * apply Forall2_app; auto.
      + destruct (thread_internal v E raw HU Hraw _ _ _ _ _ _ _ Hr Hl H2) as [C D].
        exists xs. rewrite Hl, received_app, events_app, sends_app.
        change (received_by SHELL (YIntern w :: l2)) with (received_by SHELL l2). change (events SHELL (YIntern w :: l2)) with (events SHELL l2).
        rewrite (received_tooks SHELL l2 H2), C, (sends_none (events SHELL l2)); [cbn; rewrite !app_nil_r; auto|].
        eapply Forall_impl; [|exact D]. intros e X. apply X.
  Qed.
End Replies.

(** ** Identifiers *)
(** [idd pend p]: every message [p] sends carries a number generated by [p] itself for this message
    only; [pend]: the last number generated and not yet used. *)
Section Fresh.
  Context {U : Type} (E : env U).
  Definition next (o : kop U) : kans o -> option nat -> option nat :=
    match o return kans o -> option nat -> option nat with
    | KGuid => fun n _ => Some n
    | KEmit e => fun _ p => match emitted e with Some _ => None | None => p end
    | _ => fun _ p => p
    end.
  Definition okay (o : kop U) (pend : option nat) : Prop :=
    match o with
    | KEmit e => match emitted e with
                 | Some h => well_sent E e /\ exists n ty, pend = Some n /\ header_with h (e_guid E n) ty (e_user_name E) (e_session_id E)
                 | None => True
                 end
    | _ => True
    end.
  Fixpoint idd {A} (pend : option nat) (p : kprog U A) : Prop :=
    match p with Do o k => okay o pend /\ forall x, idd (next o x pend) (k x) | _ => True end.
  Definition clean {A} (p : kprog U A) : Prop := forall pend, idd pend p.
  Lemma clean_ret {A} (a : A) : clean (Ret a). Proof. intros pend. exact I. Qed.
  Lemma clean_throw {A} e : clean (Throw e : kprog U A). Proof. intros pend. exact I. Qed.
  Lemma clean_stuck {A} w : clean (Stuck w : kprog U A). Proof. intros pend. exact I. Qed.
  Lemma clean_res {A} (r : res A) : clean (of_res r). Proof. intros pend. destruct r; exact I. Qed.
  Lemma clean_bind {A B} (p : kprog U A) (f : A -> kprog U B) : clean p -> (forall a, clean (f a)) -> clean (tbind p f).
  Proof.
    intros Hp Hf pend. specialize (Hp pend). revert pend Hp. induction p as [a|e|w|o k IH]; intros pend Hp; cbn [tbind]; try exact I; [apply Hf|].
    destruct Hp as [Ho Hk]. split; [exact Ho|]. intros x. apply IH. apply Hk.
  Qed.
  Lemma clean_catch {A} (p h : kprog U A) : clean p -> clean h -> clean (catch_std p h).
  Proof.
    intros Hp Hh pend. specialize (Hp pend). revert pend Hp. induction p as [a|e|w|o k IH]; intros pend Hp; cbn [catch_std]; try exact I; [destruct (is_std e); [apply Hh|exact I]|].
    destruct Hp as [Ho Hk]. split; [exact Ho|]. intros x. apply IH. apply Hk.
  Qed.
  Lemma clean_attempt {A} (p : kprog U A) : clean p -> clean (attempt p).
  Proof.
    intros Hp pend. specialize (Hp pend). revert pend Hp. induction p as [a|e|w|o k IH]; intros pend Hp; cbn [attempt]; try exact I.
    destruct Hp as [Ho Hk]. split; [exact Ho|]. intros x. apply IH. apply Hk.
  Qed.
  Lemma clean_kdo o : (match o with KEmit e => emitted e = None | _ => True end) -> clean (kdo o).
  Proof. intros H pend. split; [destruct o; cbn; auto; now rewrite H|]. intros; exact I. Qed.
  Ltac cq := match goal with |- clean (kdo ?o) => refine (clean_kdo o I) | |- clean (emit ?e) => refine (clean_kdo (KEmit e) eq_refl) end.
  Ltac cb := apply clean_bind; [|intros].
  Lemma idd_bind {A B} pend (p : kprog U A) (f : A -> kprog U B) : clean p -> (forall a pend', idd pend' (f a)) -> idd pend (tbind p f).
  Proof. intros Hp Hf. exact (clean_bind p f Hp (fun a pend' => Hf a pend') pend). Qed.
  (** A new header and a message with it. *)
  Lemma idd_header {A} ty (f : json -> kprog U A) :
    (forall h n, header_with h (e_guid E n) ty (e_user_name E) (e_session_id E) -> idd (Some n) (f h)) -> clean (tbind (new_header E ty) f).
  Proof.
    intros Hf pend. unfold new_header, new_guid, now, kdo, perform. cbn [tbind idd]. split; [exact I|]. intros n1. cbn [next tbind idd].
    split; [exact I|]. intros n2. cbn [next tbind]. apply Hf. apply header_with_make.
  Qed.
  Lemma idd_res {A B} pend (r : res A) (f : A -> kprog U B) : (forall a, r = Ok a -> idd pend (f a)) -> idd pend (tbind (of_res r) f).
  Proof. intros H. destruct r; cbn; auto. Qed.
  Lemma clean_publish ty md ct bufs c' : clean (publish_message E ty md ct bufs c').
  Proof.
    unfold publish_message. apply idd_header. intros h n Hh. unfold kdo, perform. cbn [tbind idd]. split; [exact I|]. intros p. cbn [next]. cbv zeta.
    apply idd_res. intros _ _. apply idd_res. intros w Hw. split; [|intros; exact I]. split; [exact Hw|]. exists n, ty. auto.
  Qed.
  Lemma clean_reply_to ids ty ph md ct c' : clean (send_reply_to E ids ty ph md ct c').
  Proof.
    unfold send_reply_to. apply idd_header. intros h n Hh. cbv zeta.
    apply idd_res. intros _ _. apply idd_res. intros w Hw. split; [|intros; exact I]. split; [exact Hw|]. exists n, ty. auto.
  Qed.
  Lemma clean_reply ty md ct c' : clean (send_reply E ty md ct c').
  Proof. unfold send_reply. cb; [cq|]. cb; [cq|]. apply clean_reply_to. Qed.
  Lemma clean_look {A} (f : comms -> res A) : clean (look_comms f).
  Proof. unfold look_comms. cb; [cq | apply clean_res]. Qed.
  Lemma clean_with {A} (f : comms -> res (comms * A)) : clean (with_comms f).
  Proof. unfold with_comms. cb; [cq|]. cb; [apply clean_res|]. cb; [cq | apply clean_ret]. Qed.
  Lemma clean_target p ty md ct bufs : clean (target_publish E p ty md ct bufs).
  Proof. unfold target_publish. cb; [apply clean_look|]. destruct (t_manager a); [apply clean_publish | apply clean_stuck]. Qed.
  Lemma clean_guid : clean (new_guid E).
  Proof. unfold new_guid. cb; [cq | apply clean_ret]. Qed.
  Lemma clean_now : clean (now E).
  Proof. unfold now. cb; [cq | apply clean_ret]. Qed.
  Hint Resolve clean_ret clean_throw clean_stuck clean_res clean_publish clean_reply clean_reply_to clean_look clean_with clean_target clean_guid clean_now : cl.
  Ltac cl := repeat first [ solve [auto with cl] | cq | cb | apply clean_catch | apply clean_attempt ].
  Lemma clean_api0 o : clean (api0 E o).
  Proof. destruct o; cbn [api0]; unfold publish_execution_input, comm_open_msg, comm_close_msg, comm_send_msg; cl. Qed.
  Hint Resolve clean_api0 : cl.
  Lemma clean_embed0 {A} (t : ucode0 U A) : clean (embed0 E t).
  Proof. induction t as [a|e|w|o k IH]; cbn [embed0]; cl. Qed.
  Hint Resolve clean_embed0 : cl.
  Lemma clean_input_reply x : clean (input_reply E x).
  Proof. unfold input_reply. cl. destruct a as [[|n]|]; cl. destruct a; cl. Qed.
  Hint Resolve clean_input_reply : cl.
  Lemma clean_stdin w : clean (dispatch_stdin E w).
  Proof. unfold dispatch_stdin, log. cl. Qed.
  Lemma clean_send_stdin ty md ct : clean (send_stdin E ty md ct).
  Proof.
    unfold send_stdin. cb; [cq|]. apply idd_header. intros h n Hh. unfold kdo, perform. cbn [tbind idd]. split; [exact I|]. intros p. cbn [next]. cbv zeta.
    apply idd_res. intros _ _. apply idd_res. intros w Hw. unfold emit, kdo, perform. cbn [tbind idd]. split; [split; [exact Hw|]; exists n, ty; auto|].
    intros x. split; [exact I|]. intros y. apply clean_stdin.
  Qed.
  Hint Resolve clean_send_stdin : cl.
  Lemma clean_api1 o : clean (api1 E o).
  Proof.
    destruct o; cbn [api1]; unfold blocking_input_request, input_request; [exact (clean_api0 o)| |]; cl.
    match goal with |- context [match ?x with inl _ => _ | inr _ => _ end] => destruct x end; cl.
  Qed.
  Hint Resolve clean_api1 : cl.
  Lemma clean_embed {A} (t : ucode U A) : clean (embed E t).
  Proof. induction t as [a|e|w|o k IH]; cbn [embed]; cl. Qed.
  Hint Resolve clean_embed : cl.
  Lemma clean_interp r : clean (interp E r).
  Proof. unfold interp. cl. Qed.
  Hint Resolve clean_interp : cl.
  Lemma clean_internal w : clean (dispatch_internal E w).
  Proof. unfold dispatch_internal. cl. Qed.
  Hint Resolve clean_internal : cl.
  Lemma clean_api2 o : clean (api2 E o).
  Proof. destruct o; cbn [api2]; [exact (clean_api1 o)|]; unfold send_to_shell. cl. destruct (e_split E); cl. Qed.
  Hint Resolve clean_api2 : cl.
  Lemma clean_embed2 {A} (t : ucode2 U A) : clean (embed2 E t).
  Proof. induction t as [a|e|w|o k IH]; cbn [embed2]; cl. Qed.
  Hint Resolve clean_embed2 : cl.
  Lemma clean_abort_request w : clean (abort_request E w).
  Proof. unfold abort_request. cl. destruct a; cbv zeta; cl. Qed.
  Hint Resolve clean_abort_request : cl.
  Lemma clean_abort_loop n : clean (abort_loop E n).
  Proof. induction n as [|n IH]; cbn [abort_loop]; cl. destruct a; cl. Qed.
  Hint Resolve clean_abort_loop : cl.
  Lemma clean_handlers ty h m c : mfind ty (handlers E) = Some h -> clean (h m c).
  Proof.
    intros H. unfold handlers in H. cbn [mfind] in H.
    repeat match type of H with (if String.eqb ?a ?b then _ else _) = _ => destruct (String.eqb a b); [injection H as <-|] end; [..|discriminate].
    - unfold execute_request, interp_execute, get_metadata, publish_execution_input, abort_queue. cbv zeta. cl.
      + destruct a0; cl. destruct (Z.eqb _ _); cl.
      + destruct (_ && _); cl.
      + destruct (_ && _); cl.
    - unfold complete_request. cbv zeta. cl.
    - unfold inspect_request. cbv zeta. cl.
    - unfold history_request. cl.
    - unfold is_complete_request. cl.
    - unfold comm_info_request. cbv zeta. cl.
    - unfold comm_open, run_callback. cbv zeta. cl. destruct a0 as [[p t]|]; cl.
      + destruct (t_callback t); cl.
      + destruct a2; cl.
    - unfold comm_close, run_handler. cl. destruct a0; cl. destruct (c_close a0); cl.
    - unfold comm_msg, run_handler. cl. destruct a0; cl. destruct (c_message a0); cl.
    - unfold kernel_info_request. cl.
    - unfold shutdown_request. cbv zeta. cl.
    - unfold interrupt_request. cl.
    - unfold debug_request, get_metadata. destruct (e_debugger E); cbv zeta; cl.
  Qed.
  Lemma clean_dispatch w c : clean (dispatch E w c).
  Proof.
    unfold dispatch, set_parent, publish_status, log. cl. destruct a as [m|]; cbv zeta; cl.
    unfold handle. destruct (mfind a2 (handlers E)) eqn:Hf; cl. eapply clean_handlers; eauto.
  Qed.
End Fresh.

Section Ids.
  Context {U : Type} (v : variant) (E : env U).
  Implicit Types (m : mem U) (k : kstate U).
  Let listener c w := dispatch E w c.
  Let internal := dispatch_internal E.
  Definition unused (pend : option nat) (ns : list nat) k : Prop := match pend with Some n => n < k_guid k /\ ~ In n ns | None => True end.
  (** [ns]: the numbers of the messages sent; [pa], [pb]: the numbers the two threads will use next. *)
  Record ids_ok (ns : list nat) (pa pb : option nat) k : Prop := {
    io_ids : event_ids (k_trace k) = List.map (e_guid E) ns;
    io_nodup : NoDup ns;
    io_below : Forall (fun n => n < k_guid k) ns;
    io_sent : Forall (well_sent E) (k_trace k);
    io_headers : forall e h, In e (k_trace k) -> emitted e = Some h -> exists id ty, header_with h id ty (e_user_name E) (e_session_id E);
    io_a : unused pa ns k;
    io_b : unused pb ns k;
    io_diff : pa = pb -> pa = None
  }.
  Lemma ids_same ns pa pb k k' : ids_ok ns pa pb k -> k_trace k' = k_trace k -> k_guid k' = k_guid k -> ids_ok ns pa pb k'.
  Proof. intros [A B C D F G H I] T N. constructor; unfold unused in *; rewrite ?T, ?N; auto. Qed.
  Lemma ids_swap ns pa pb k : ids_ok ns pa pb k -> ids_ok ns pb pa k.
  Proof. intros [A B C D F G H I]. constructor; auto. intros X. symmetry in X. rewrite <- X. auto. Qed.
  Lemma ids_none ns pa pb k : ids_ok ns pa pb k -> ids_ok ns None pb k.
  Proof. intros [A B C D F G H I]. constructor; auto. exact Logic.I. Qed.
  Lemma mop_ids o m m' x pa pb ns : mop o m m' x -> okay E o pa -> ids_ok ns pa pb (m_k m) -> exists ns', ids_ok ns' (next o x pa) pb (m_k m').
  Proof.
    intros H Ho Hi.
    assert (Hsame : next o x pa = pa -> k_trace (m_k m') = k_trace (m_k m) -> k_guid (m_k m') = k_guid (m_k m) -> exists ns', ids_ok ns' (next o x pa) pb (m_k m')).
    { intros -> T N. exists ns. eapply ids_same; eauto. }
    destruct o; cbn [mop next] in *;
      try (lazymatch type of H with _ /\ _ => destruct H as [-> _]; apply Hsame; reflexivity end).
    - destruct H as [-> ->]. exists ns. destruct Hi as [A B C D F G Hb I]. cbn. constructor; cbn; auto.
      + eapply Forall_impl; [|exact C]. cbn. lia.
      + split; [lia|]. intros X. rewrite Forall_forall in C. apply C in X. lia.
      + destruct pb; cbn in *; auto. destruct Hb. split; auto.
      + intros X. subst pb. cbn in Hb. lia.
    - subst m'. assert (Hk : m_k (on_event e (set_k (fst (kstep (KEmit e) (m_k m))) m)) = fst (kstep (KEmit e) (m_k m))) by (destruct e; reflexivity).
      rewrite Hk. clear Hk. cbn [okay] in Ho. destruct Hi as [A B C D F G Hb I].
      assert (T : forall ns', event_id e = List.map (e_guid E) ns' -> event_ids (k_trace (m_k m) ++ [e]) = List.map (e_guid E) (ns ++ ns')).
      { intros ns' Hn. unfold event_ids in *. rewrite flat_map_app, map_app, A. cbn. now rewrite app_nil_r, Hn. }
      destruct (emitted e) as [h|] eqn:He.
      + destruct Ho as (Hw & n & ty & -> & Hh). cbn in G. destruct G as [G1 G2]. exists (ns ++ [n])%list. constructor; cbn.
        * apply T. unfold event_id. rewrite He. destruct Hh as (d & mm & -> & _ & Hid & _). unfold sfield. now rewrite Hid.
        * rewrite <- (rev_involutive (ns ++ [n])), rev_app_distr. apply NoDup_rev. cbn. constructor; [now rewrite <- in_rev|now apply NoDup_rev].
        * apply Forall_app. auto.
        * apply Forall_app. auto.
        * intros e' h' Hin He'. apply in_app_or in Hin as [Hin|[<-|[]]]; [eauto|]. assert (h' = h) as -> by congruence. eauto.
        * exact Logic.I.
        * destruct pb as [nb|]; cbn in *; auto. destruct Hb. split; auto. intros X. apply in_app_or in X as [X|[X|[]]]; auto. subst nb. now specialize (I eq_refl).
        * auto.
      + exists ns. constructor; cbn; auto.
        * rewrite <- (app_nil_r ns). apply T. unfold event_id. now rewrite He.
        * apply Forall_app. split; auto. constructor; auto. destruct e; cbn in *; try discriminate; exact Logic.I.
        * intros e' h' Hin He'. apply in_app_or in Hin as [Hin|[<-|[]]]; [eauto|congruence].
    - destruct H as (_ & -> & _). apply Hsame; reflexivity.
    - subst m'. apply Hsame; reflexivity.
    - destruct (m_shellq m); destruct H as [-> ->]; apply Hsame; reflexivity.
    - destruct H.
  Qed.
  Definition gidd (pend : option nat) {A} (g : going U A) : Prop :=
    match g with Going p => idd E pend p | Calling k => forall w, idd E pend (k w) end.
  Lemma gstep_ids c {A} (g : going U A) m l g' m' pa pb ns : gstep c g m l g' m' -> gidd pa g -> ids_ok ns pa pb (m_k m) ->
    exists ns' pa', gidd pa' g' /\ ids_ok ns' pa' pb (m_k m').
  Proof.
    intros H Hg Hi. destruct H as [o k m m' x H|w k m H|k w m H]; cbn [gidd idd] in *.
    - destruct Hg as [Ho Hk]. destruct (mop_ids _ _ _ _ _ _ _ H Ho Hi) as [ns' Hi']. exists ns', (next o x pa). auto.
    - destruct Hg as [_ Hk]. exists ns, pa. auto.
    - exists ns, pa. split; auto.
  Qed.
  Definition sh_idd (pend : option nat) (a : shpc U) : Prop := match a with SRun g _ => gidd pend g | SIntern g => gidd pend g | _ => True end.
  Definition ct_idd (pend : option nat) (a : ctpc U) : Prop := match a with CRun g => gidd pend g | _ => True end.
  Definition sys_ids (s : ysys U) : Prop := exists ns pa pb, sh_idd pa (y_sh s) /\ ct_idd pb (y_ct s) /\ ids_ok ns pa pb (m_k (y_mem s)).
  Lemma ystep_ids s l s' : ystep v listener internal s l s' -> sys_ids s -> sys_ids s'.
  Proof.
    intros H (ns & pa & pb & A & B & C). destruct H; cbn [y_sh y_ct y_mem] in *; unfold sys_ids; cbn [y_sh y_ct y_mem]; eauto 8.
    - destruct H; cbn [sh_idd] in *; try (exists ns, pa, pb; split; [exact I|]; split; auto; fail).
      + exists ns, pa, pb. split; [apply clean_dispatch|]. auto.
      + destruct (gstep_ids _ _ _ _ _ _ _ _ _ H A C) as (ns' & pa' & A' & C'). exists ns', pa', pb. auto.
      + exists ns, pa, pb. split; [destruct b0; exact I|]. auto.
      + exists ns, pa, pb. split; [apply clean_internal|]. auto.
      + destruct (gstep_ids _ _ _ _ _ _ _ _ _ H A C) as (ns' & pa' & A' & C'). exists ns', pa', pb. auto.
    - apply ids_swap in C. destruct H; cbn [ct_idd] in *; try (exists ns, pa, pb; split; [exact A|]; split; [exact I|]; apply ids_swap; auto; fail).
      + exists ns, pa, pb. split; auto. split; [apply clean_dispatch|]. now apply ids_swap.
      + destruct (gstep_ids _ _ _ _ _ _ _ _ _ H B C) as (ns' & pb' & B' & C'). exists ns', pa, pb'. split; auto. split; auto. now apply ids_swap.
    - exists ns, pa, pb. destruct ch; auto.
  Qed.
  Lemma split_ids k0 start ls s : yrun v listener internal (y_init k0 start) ls s -> (exists ns, ids_ok ns None None k0) -> sys_ids s.
  Proof.
    intros Hr [ns H0]. remember (y_init k0 start) as s0 eqn:Hs0. induction Hr as [|s0 ls s1 l s2 H IH Hst]; [subst s|].
    - exists ns, None, None. repeat split; auto; apply H0.
    - eapply ystep_ids; eauto.
  Qed.
  Lemma start_ids raw (Hu : env_utf8 E) (HU : user_publishes E raw) u q : exists ns, ids_ok ns None None (fst (run (kernel_start E) (kinit u q))).
  Proof.
    destruct (start_extends E raw Hu HU u q) as [(evs & T & N & F) _]. cbn in T. set (k0 := fst _) in *.
    assert (X : forall lo hi evs, numbered E lo evs hi -> exists ns, event_ids evs = List.map (e_guid E) ns /\ NoDup ns /\ Forall (fun n => lo <= n < hi) ns).
    { clear. induction 1 as [lo hi H|lo n e h ty evs hi Hl He Hh Hn (ns & IH1 & IH2 & IH3)|lo e evs hi He Hn (ns & IH1 & IH2 & IH3)].
      - exists []. repeat constructor.
      - exists (n :: ns). unfold event_ids in *. cbn [flat_map]. rewrite IH1. unfold event_id. rewrite He.
        destruct Hh as (d & mm & -> & _ & Hid & _). unfold sfield. rewrite Hid. split; auto. split.
        + constructor; auto. intros Hin. rewrite Forall_forall in IH3. apply IH3 in Hin. lia.
        + constructor; [|eapply Forall_impl; [|exact IH3]; cbn; lia]. assert (S n <= hi) by (eapply numbered_le; eauto). lia.
      - exists ns. split; auto. unfold event_ids in *. cbn [flat_map]. rewrite IH1. unfold event_id. now rewrite He. }
    destruct (X _ _ _ N) as (ns & I1 & I2 & I3). exists ns. rewrite <- T in *. constructor; auto; try exact I.
    - eapply Forall_impl; [|exact I3]. cbn. lia.
    - exact (numbered_headers E _ _ _ N).
  Qed.
End Ids.

Section Trace.
  Context {U : Type} (v : variant) (listener : channel -> frames -> kprog U unit) (internal : frames -> kprog U frames).
  Lemma occurred_app a b : occurred (a ++ b) = (occurred a ++ occurred b)%list.
  Proof. apply flat_map_app. Qed.
  Lemma gstep_trace c {A} (g : going U A) m l g' m' : gstep c g m l g' m' -> k_trace (m_k m') = (k_trace (m_k m) ++ occurred [l])%list.
  Proof.
    destruct 1 as [o k m m' x H|w k m H|k w m H]; cbn; rewrite ?app_nil_r; auto.
    destruct o; cbn [mop label_of] in *; try (lazymatch type of H with _ /\ _ => destruct H as [-> _]; cbn; now rewrite app_nil_r end).
    - subst m'. destruct e; reflexivity.
    - destruct H as (_ & -> & _). cbn. now rewrite app_nil_r.
    - subst m'. now rewrite app_nil_r.
    - destruct (m_shellq m); destruct H as [-> ->]; cbn; now rewrite app_nil_r.
    - destruct H.
  Qed.
  Lemma ystep_trace s l s' : ystep v listener internal s l s' -> k_trace (m_k (y_mem s')) = (k_trace (m_k (y_mem s)) ++ occurred [l])%list.
  Proof.
    destruct 1; cbn [y_mem]; try (cbn; now rewrite app_nil_r).
    - destruct H; try (cbn; now rewrite app_nil_r); eapply gstep_trace; eauto.
    - destruct H; try (cbn; now rewrite app_nil_r); eapply gstep_trace; eauto.
    - destruct ch; cbn; now rewrite app_nil_r.
  Qed.
  Lemma yrun_trace k0 start ls s : yrun v listener internal (y_init k0 start) ls s -> k_trace (m_k (y_mem s)) = (k_trace k0 ++ occurred ls)%list.
  Proof.
    intros Hr. remember (y_init k0 start) as s0 eqn:Hs0. induction Hr as [|s0 ls s1 l s2 H IH Hst]; [subst s; cbn; now rewrite app_nil_r|].
    rewrite (ystep_trace _ _ _ Hst), (IH Hs0), occurred_app, app_assoc. reflexivity.
  Qed.
End Trace.
