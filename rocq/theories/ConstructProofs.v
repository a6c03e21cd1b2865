(** Proofs about Construct.v. *)
From Verif Require Import Base BaseFacts Auth JsonText JsonTextProofs Host HostProofs Construct ConstructSpec.

Lemma dec_no_colon z : no_colon (dec_of_Z z).
Proof.
  apply after_last_none. rewrite dec_of_Z_cases. assert (forall n, after_last ":" (dec_of_N n) = None) as D.
  { intros n. pose proof (dec_of_N_digits n) as S. revert S. generalize (dec_of_N n). clear. induction s as [|c s IH]; cbn [sall after_last]; auto. intros S. apply andb_true_iff in S as [S1 S2].
    rewrite (IH S2). destruct (Ascii.eqb_spec ":" c) as [<-|]; [|reflexivity]. discriminate S1. }
  destruct (z <? 0)%Z; cbn; now rewrite D.
Qed.
Lemma end_point_tcp ip port : get_end_point "tcp" ip port = "tcp://" +++ ip +++ ":" +++ port.
Proof. reflexivity. Qed.

Section Proofs.
  Context (H : host).

  Lemma init_socket_spec transport ip port b e b' : init_socket H transport ip port b = Ok (e, b') ->
    match e with
    | Some r => b_bound b' = (b_bound b ++ [r])%list /\
        exists p, h_bind H (b_bound b) (get_end_point transport ip p) = Some r /\ (port <> "" -> p = port) /\ (port = "" -> exists z, p = dec_of_Z z)
    | None => b_bound b' = b_bound b /\ port = "" /\ gave_up H transport ip
    end.
  Proof.
    unfold init_socket. destruct (String.eqb_spec port "") as [->|N]; cbn [negb].
    - destruct (find_free_port_impl 100 _ _ _ _) as [tried p] eqn:F. unfold find_free_port_impl in F. apply try_ports_spec in F as (_ & F). cbv zeta in F.
      destruct F as [(j & _ & _ & -> & B & _)|(-> & _ & F)].
      + destruct (String.eqb_spec (dec_of_Z (h_draw H (b_draws b + (0 + j)))) "") as [X|_]; [now apply dec_nonempty in X|].
        destruct (h_bind H _ _) as [r|] eqn:R; [|discriminate]. intros [= <- <-]. cbn. split; auto. eexists. split; [exact R|]. split; [congruence|eauto].
      + cbn. intros [= <- <-]. cbn. split; auto. split; auto. exists (b_bound b), (b_draws b). intros i Hi. specialize (F i Hi). cbn in F.
        destruct (h_bind H _ _); [discriminate|auto].
    - destruct (h_bind H _ _) as [r|] eqn:R; [|discriminate]. intros [= <- <-]. cbn. split; auto. exists port. split; auto. split; congruence.
  Qed.

  Lemma chan_eqb_spec a b : reflect (a = b) (chan_eqb a b).
  Proof. destruct a, b; cbn; constructor; congruence. Qed.

  Definition made_by (c : config) (ch : chan) (e : option string) : Prop :=
    exists b b', init_socket H (g_transport c) (g_ip c) (port_of ch c) b = Ok (e, b').
  Lemma bind_all_made c : forall l s b s' b', bind_all H l c s b = Ok (s', b') -> forall ch, In ch l -> NoDup l -> made_by c ch (s' ch).
  Proof.
    assert (forall l s b s' b', bind_all H l c s b = Ok (s', b') -> forall ch, ~ In ch l -> s' ch = s ch) as Out.
    { induction l as [|a l IH]; cbn; [intros; congruence|]. intros s b s' b' R ch N. destruct (init_socket _ _ _ _ b) as [[e b1]| |]; try discriminate. cbn [bind] in R.
      rewrite (IH _ _ _ _ R ch) by tauto. destruct (chan_eqb_spec ch a); [|auto]. subst. tauto. }
    induction l as [|a l IH]; cbn; [tauto|]. intros s b s' b' R ch I N. inversion N; subst. destruct (init_socket _ _ _ _ b) as [[e b1]| |] eqn:S; try discriminate. cbn [bind] in R.
    destruct I as [->|I]; [|eauto]. rewrite (Out _ _ _ _ _ R ch) by auto. destruct (chan_eqb_spec ch ch); [|congruence]. exists b, b1. auto.
  Qed.
  (** The sockets are bound to different end points. *)
  Definition apart (s : sockets) (b : built) : Prop :=
    (forall ch e, s ch = Some e -> In e (b_bound b)) /\ forall ch ch' e, s ch = Some e -> s ch' = Some e -> ch = ch'.
  Lemma bind_all_apart c : exclusive H -> forall l s b s' b', bind_all H l c s b = Ok (s', b') -> apart s b -> apart s' b'.
  Proof.
    intros X. induction l as [|a l IH]; cbn; [intros; congruence|]. intros s b s' b' R (A1 & A2). destruct (init_socket _ _ _ _ b) as [[e b1]| |] eqn:S; try discriminate. cbn [bind] in R.
    apply (IH _ _ _ _ R). apply init_socket_spec in S. destruct e as [r|].
    - destruct S as (B & p & Bp & _). apply X in Bp. split.
      + intros ch e. destruct (chan_eqb ch a); rewrite B, in_app_iff; [intros [= <-]; cbn; auto|eauto].
      + intros ch ch' e. destruct (chan_eqb_spec ch a) as [->|N], (chan_eqb_spec ch' a) as [->|N']; auto.
        * intros [= <-] E. apply A1 in E. contradiction.
        * intros E [= <-]. apply A1 in E. contradiction.
        * apply A2.
    - destruct S as (B & _). split.
      + intros ch e. destruct (chan_eqb ch a); [discriminate|]. rewrite B. apply A1.
      + intros ch ch' e. destruct (chan_eqb ch a); [discriminate|]. destruct (chan_eqb ch' a); [discriminate|]. apply A2.
  Qed.
  Lemma order_all split ch : In ch (bind_order split) /\ NoDup (bind_order split).
  Proof.
    split; [destruct split, ch; cbn; tauto|]. destruct split; cbn; repeat constructor; cbn; intuition discriminate.
  Qed.
  Lemma make_server_spec split c b s b' : make_server H split c b = Ok (s, b') -> b_bound b = [] ->
    (forall ch, made_by c ch (s ch)) /\ (exclusive H -> apart s b').
  Proof.
    unfold make_server. intros R B. split.
    - intros ch. destruct (order_all split ch). eapply bind_all_made; eauto.
    - intros X. eapply bind_all_apart; eauto. split; intros; discriminate.
  Qed.
  Lemma update_config_spec s c c' : update_config s c = Ok c' ->
    g_transport c' = g_transport c /\ g_ip c' = g_ip c /\ g_scheme c' = g_scheme c /\ g_key c' = g_key c /\ forall ch, port_read (s ch) = Ok (port_of ch c').
  Proof.
    unfold update_config. destruct (port_read (s Control)) eqn:E1; try discriminate. destruct (port_read (s Shell)) eqn:E2; try discriminate. destruct (port_read (s Stdin)) eqn:E3; try discriminate.
    destruct (port_read (s Iopub)) eqn:E4; try discriminate. destruct (port_read (s Hb)) eqn:E5; try discriminate. cbn. intros [= <-]. cbn. repeat split. intros []; auto.
  Qed.
  Lemma init_ok x c calls b k : init H x c = (calls, b, Ok k) ->
    exists c1 debugger, c1 = (if String.eqb (g_key c) "" then with_key (h_guid H 2) c else c) /\ make_xauthentication (g_scheme c1) (g_key c1) = Ok (n_auth k) /\
      make_server H (x_split x) c1 {| b_draws := 0; b_bound := [] |} = Ok (n_sockets k, b) /\ update_config (n_sockets k) c1 = Ok (n_config k) /\
      x_debugger x (n_config k) (n_session k) = Ok debugger /\ x_configure x = Ok tt /\ n_logs k = (x_logger x && x_env x)%bool /\
      n_kernel k = h_guid H 0 /\ n_session k = h_guid H 1 /\
      calls = (CServer c1 :: CDebugger (n_config k) (n_session k) :: CCore (n_session k) (n_auth k) :: (if debugger then [CMessenger true] else []) ++ [CMessenger false; CHistory; CConfigure])%list.
  Proof.
    unfold init. set (c1 := if String.eqb (g_key c) "" then _ else c). cbv zeta. destruct (make_xauthentication _ _) as [a| |] eqn:A; try (intros [= _ _ ?]; discriminate).
    destruct (make_server _ _ _ _) as [[s b']| |] eqn:S; try (intros [= _ _ ?]; discriminate). destruct (update_config s c1) as [c2| |] eqn:Up; try (intros [= _ _ ?]; discriminate).
    destruct (x_debugger x c2 _) as [d| |] eqn:Db; try (intros [= _ _ ?]; discriminate). destruct (x_configure x) as [[]| |] eqn:Cf; try (intros [= _ _ ?]; discriminate).
    cbn [bind]. intros [= <- <- <-]. exists c1, d. cbn. repeat split; auto.
  Qed.
  Lemma ports_same key c ch : port_of ch (with_key key c) = port_of ch c.
  Proof. now destruct ch. Qed.
  Lemma keyed c c1 : c1 = (if String.eqb (g_key c) "" then with_key (h_guid H 2) c else c) ->
    g_transport c1 = g_transport c /\ g_ip c1 = g_ip c /\ g_scheme c1 = g_scheme c /\ (forall ch, port_of ch c1 = port_of ch c) /\
    (g_key c <> "" -> g_key c1 = g_key c) /\ (g_key c = "" -> g_key c1 = h_guid H 2).
  Proof.
    intros ->. destruct (String.eqb_spec (g_key c) ""); repeat split; auto; congruence.
  Qed.
End Proofs.
