(** Proofs about the host part (C50-C55). *)
From Verif Require Import Base BaseFacts Json JsonText JsonTextProofs JsonParseProofs Utf8 Auth Message Host Logger HostSpec.

(** ** Connection files *)
Lemma read_parse text doc : parse text = Ok doc -> read_value (Some text) = Ok doc.
Proof.
  unfold parse, parse_opt, read_value. destruct (pval _ _) as [[j r]|]; [|discriminate].
  destruct (at_end r); [|discriminate]. now intros [= <-].
Qed.
Lemma string_at_ok k doc v : string_at k doc = Ok v <-> str_field k doc v.
Proof.
  unfold string_at, str_field, jfield, jget_mut. destruct doc; cbn; try (split; discriminate).
  destruct (mfind k m) as [x|]; cbn; [|split; discriminate].
  destruct x; cbn; split; congruence.
Qed.
Lemma string_at_not_ub k doc w : string_at k doc <> UB w.
Proof.
  unfold string_at, jget_mut. destruct doc; cbn; try discriminate. destruct (mfind k m) as [x|]; cbn; try discriminate. destruct x; cbn; discriminate.
Qed.
Lemma port_at_ok k doc v : port_at k doc = Ok v <-> exists x n, jfield k doc = Some x /\ get_int x = Ok n /\ v = dec_of_Z n.
Proof.
  unfold port_at, jfield, jget_mut. destruct doc; cbn; try (split; [discriminate | intros (? & ? & ? & _); discriminate]).
  destruct (mfind k m) as [x|]; cbn [bind]; [|split; [discriminate | intros (? & ? & ? & _); discriminate]].
  destruct (get_int x) eqn:E; cbn; split; try discriminate; try (intros (? & ? & [= <-] & ? & ?); congruence).
  intros [= <-]; eauto.
Qed.
Definition port_value (key : string) (doc : json) (v : string) : Prop := exists x n, jfield key doc = Some x /\ get_int x = Ok n /\ v = dec_of_Z n.
Definition scheme_value (doc : json) (c : config) : Prop :=
  (exists m, doc = JObj m) /\
  (jfield "signature_scheme" doc = None /\ g_scheme c = "" /\ g_key c = "" \/
   str_field "signature_scheme" doc "" /\ g_scheme c = "" /\ g_key c = "" \/
   g_scheme c <> "" /\ str_field "signature_scheme" doc (g_scheme c) /\ str_field "key" doc (g_key c)).
Lemma bind_ok {A B} (x : res A) (f : A -> res B) b : bind x f = Ok b <-> exists a, x = Ok a /\ f a = Ok b.
Proof. destruct x; cbn; split; eauto; try discriminate; intros (? & [= ->] & H); auto. Qed.
Lemma load_ok file c : load_configuration file = Ok c <-> exists doc, read_value file = Ok doc /\
  str_field "transport" doc (g_transport c) /\ str_field "ip" doc (g_ip c) /\
  port_value "control_port" doc (g_control c) /\ port_value "shell_port" doc (g_shell c) /\ port_value "stdin_port" doc (g_stdin c) /\
  port_value "iopub_port" doc (g_iopub c) /\ port_value "hb_port" doc (g_hb c) /\ scheme_value doc c.
Proof.
  unfold load_configuration. split.
  - intros H. apply bind_ok in H as (doc & D & H). exists doc. split; auto.
    apply bind_ok in H as (tr & T1 & H). apply bind_ok in H as (ip & T2 & H).
    apply bind_ok in H as (p1 & P1 & H). apply bind_ok in H as (p2 & P2 & H). apply bind_ok in H as (p3 & P3 & H).
    apply bind_ok in H as (p4 & P4 & H). apply bind_ok in H as (p5 & P5 & H). apply bind_ok in H as (sc & S & H).
    apply bind_ok in H as (ky & K & [= <-]). cbn.
    apply string_at_ok in T1, T2. apply port_at_ok in P1, P2, P3, P4, P5.
    do 7 (split; [assumption|]). unfold scheme_value; cbn.
    unfold value_string, jvalue in S. destruct doc; try discriminate. split; eauto. cbn [jfield] in *. unfold str_field, jfield.
    destruct (mfind "signature_scheme" m) as [v|].
    + destruct v; try discriminate. injection S as ->. destruct (String.eqb_spec sc "") as [->|N]; cbn in K.
      * injection K as <-. auto.
      * apply string_at_ok in K. auto.
    + injection S as <-. cbn in K. injection K as <-. auto.
  - intros (doc & -> & T1 & T2 & P1 & P2 & P3 & P4 & P5 & (m & ->) & S). cbn [bind].
    apply string_at_ok in T1, T2. rewrite T1, T2. cbn [bind].
    apply port_at_ok in P1, P2, P3, P4, P5. rewrite P1, P2, P3, P4, P5. cbn [bind].
    unfold value_string, jvalue, str_field, jfield in *.
    destruct S as [(-> & E1 & E2)|[(-> & E1 & E2)|(N & -> & K)]].
    + cbn. destruct c; cbn in *; now subst.
    + cbn. destruct c; cbn in *; now subst.
    + cbn [get_string bind]. apply String.eqb_neq in N. rewrite N. cbn [negb].
      assert (string_at "key" (JObj m) = Ok (g_key c)) as -> by now apply string_at_ok. now destruct c.
Qed.
Lemma declares_loads text doc c : parse text = Ok doc -> declares doc c -> load_configuration (Some text) = Ok c.
Proof.
  intros P (D1 & D2 & D3 & D4 & D5 & D6 & D7 & D8 & D9 & D10). apply load_ok. exists doc. split; [now apply read_parse|].
  assert (forall k v, port_field k doc v -> port_value k doc v) as X.
  { intros k v (n & F & R & ->). exists (JInt n), n. repeat split; auto. cbn. f_equal. unfold wrap32.
    rewrite Z.mod_small by (unfold int_min in *; lia). lia. }
  do 7 (split; [auto|]). split; auto. unfold str_field, jfield in D1. destruct doc; try discriminate. eauto.
Qed.
Lemma loads_usable file doc : read_value file = Ok doc -> (exists c, load_configuration file = Ok c) <-> usable doc.
Proof.
  intros P. split.
  - intros (c & H). apply load_ok in H as (doc' & D & T1 & T2 & P1 & P2 & P3 & P4 & P5 & (_ & S)).
    rewrite P in D. injection D as <-. split; [|split].
    + intros k [<-|[<-|[]]]; eexists; split; try eassumption; eexists; reflexivity.
    + intros k [<-|[<-|[<-|[<-|[<-|[]]]]]];
      match goal with |- exists v, jfield ?k doc = _ /\ _ => match goal with X : port_value k doc _ |- _ => destruct X as (x & n & F & G & _); exists x; split; [exact F|exists n; exact G] end end.
    + destruct S as [(S & _)|[(S & _)|(_ & S & K)]]; [auto|auto|right; right; eexists _, _; split; eassumption].
  - intros (T & Q & S).
    assert (forall k, In k ["control_port"; "shell_port"; "stdin_port"; "iopub_port"; "hb_port"] -> exists v, port_value k doc v) as Q'.
    { intros k Hk. destruct (Q k Hk) as (x & F & n & G). exists (dec_of_Z n), x, n. auto. }
    destruct (T "transport" ltac:(cbn; auto)) as (? & T1 & tr & ->). destruct (T "ip" ltac:(cbn; auto)) as (? & T2 & ip & ->).
    destruct (Q' "control_port" ltac:(cbn; auto)) as (p1 & P1). destruct (Q' "shell_port" ltac:(cbn; auto)) as (p2 & P2).
    destruct (Q' "stdin_port" ltac:(cbn; auto)) as (p3 & P3). destruct (Q' "iopub_port" ltac:(cbn; auto)) as (p4 & P4).
    destruct (Q' "hb_port" ltac:(cbn; auto 6)) as (p5 & P5).
    assert (exists m, doc = JObj m) as O by (unfold jfield in T1; destruct doc; try discriminate; eauto).
    assert (exists sc ky, scheme_value doc {| g_transport := tr; g_ip := ip; g_control := p1; g_shell := p2; g_stdin := p3; g_iopub := p4; g_hb := p5; g_scheme := sc; g_key := ky |}) as (sc & ky & SV).
    { destruct S as [S|[S|(s & k & S & K)]].
      - exists "", "". split; cbn; auto.
      - exists "", "". split; cbn; auto.
      - destruct (string_dec s "") as [->|N]; [exists "", ""|exists s, k]; split; cbn; auto. }
    match type of SV with scheme_value _ ?c => exists c end. apply load_ok. exists doc. exact (conj P (conj T1 (conj T2 (conj P1 (conj P2 (conj P3 (conj P4 (conj P5 SV)))))))).
Qed.
(** Undefined behaviour only by a port that is a fraction whose integral part is not an [int]. *)
Lemma bind_ub {A B} (x : res A) (f : A -> res B) w : bind x f = UB w -> x = UB w \/ exists a, x = Ok a /\ f a = UB w.
Proof. destruct x; cbn; intros H; try discriminate; [right; eauto | left; congruence]. Qed.
Lemma load_ub file w : load_configuration file = UB w -> exists doc k s, read_value file = Ok doc /\
  In k ["control_port"; "shell_port"; "stdin_port"; "iopub_port"; "hb_port"] /\ jfield k doc = Some (JFloat s).
Proof.
  unfold load_configuration. intros H. apply bind_ub in H as [H|(doc & D & H)].
  { unfold read_value in H. destruct file; [|discriminate]. destruct (pval _ _) as [[]|]; discriminate. }
  assert (forall k w', port_at k doc = UB w' -> exists s, jfield k doc = Some (JFloat s)) as X.
  { intros k w' U. unfold port_at, jget_mut in U. destruct doc; try discriminate. cbn. destruct (mfind k m) as [x|]; [|discriminate].
    destruct x; try discriminate. eauto. }
  apply bind_ub in H as [H|(? & _ & H)]; [now apply string_at_not_ub in H|].
  apply bind_ub in H as [H|(? & _ & H)]; [now apply string_at_not_ub in H|].
  do 5 (apply bind_ub in H as [H|(? & _ & H)]; [apply X in H as (f & H); eexists _, _, f; split; [exact D|split; [|exact H]]; cbn; tauto|]).
  apply bind_ub in H as [H|(? & _ & H)].
  { unfold value_string, jvalue in H. destruct doc; try discriminate. destruct (mfind _ m) as [v|]; [destruct v|]; discriminate. }
  apply bind_ub in H as [H|(? & _ & H)]; [|discriminate].
  destruct (negb _); [now apply string_at_not_ub in H|discriminate].
Qed.
(** Text after the object is not read. *)
Lemma read_trailing text rest m : parse text = Ok (JObj m) -> read_value (Some (text +++ rest)) = Ok (JObj m).
Proof.
  intros P. unfold read_value.
  unfold parse, parse_opt in P. destruct (pval _ _) as [[j r]|] eqn:E; [|discriminate]. destruct (at_end r); [|discriminate]. injection P as ->.
  assert (skip_bom (text +++ rest) = skip_bom text +++ rest) as ->.
  { unfold skip_bom in *. destruct (strip bom text) as [q|] eqn:B; [now rewrite (strip_ext _ _ _ rest B)|].
    destruct (strip bom (text +++ rest)) as [q|] eqn:B2; auto. exfalso. clear - E B B2.
    destruct text as [|c text]; [discriminate|]. cbn [append] in B2. 
    assert (c = chr 239) as ->.
    { unfold bom in B2. cbn [strip] in B2. destruct (Ascii.eqb_spec (chr 239) c); [auto|discriminate]. }
    revert E. unfold fuel_for. rewrite Nat.add_1_r. cbn [pval]. change (skip_ws (String (chr 239) text)) with (String (chr 239) text). cbn. discriminate. }
  rewrite <- (pval_fuel (fuel_for (skip_bom text +++ rest)) (skip_bom text)) in E by (unfold fuel_for; rewrite slen_app; lia).
  apply pval_ext with (r := rest) in E; [|cbn; auto]. rewrite E. reflexivity.
Qed.

(** ** End points *)
Definition nochar (c : ascii) (s : string) : Prop := forall a b, s <> a +++ String c b.
Lemma nochar_cons c d s : nochar c (String d s) <-> c <> d /\ nochar c s.
Proof.
  unfold nochar. split.
  - intros H. split; [intros ->; apply (H "" s); reflexivity|]. intros a b ->. apply (H (String d a) b). reflexivity.
  - intros (N & H) [|x a] b; cbn; intros [= -> ->]; [congruence|]. now apply (H a b).
Qed.
Lemma after_last_none c s : after_last c s = None <-> nochar c s.
Proof.
  induction s as [|d s IH]; cbn.
  - split; auto. intros _ [|x a] b; discriminate.
  - rewrite nochar_cons, <- IH. destruct (after_last c s); [split; [discriminate|intros (_ & H); discriminate]|].
    destruct (Ascii.eqb_spec c d); split; try discriminate; tauto.
Qed.
Lemma after_last_app c a b : nochar c b -> after_last c (a +++ String c b) = Some b.
Proof.
  intros N. induction a as [|d a IH]; cbn.
  - apply after_last_none in N. rewrite N. now rewrite Ascii.eqb_refl.
  - now rewrite IH.
Qed.
Lemma tcp_port ip port : nochar ":" port -> slen (get_end_point "tcp" ip port) <= 31 -> get_socket_port (get_end_point "tcp" ip port) = Ok port.
Proof.
  intros N L. unfold get_socket_port. destruct (Nat.ltb_spec 32 (S (slen (get_end_point "tcp" ip port)))); [lia|].
  unfold get_end_point. cbn [String.eqb Ascii.eqb Bool.eqb]. rewrite <- !sapp_assoc.
  change ((("tcp" +++ "://") +++ ip) +++ ":") with ((("tcp" +++ "://") +++ ip) +++ String ":" ""). rewrite sapp_assoc. change (String ":" "" +++ port) with (String ":" port).
  now rewrite after_last_app.
Qed.
Lemma long_endpoint e : 32 <= slen e -> get_socket_port e = Exn (Std "zmq::error_t").
Proof. intros H. unfold get_socket_port. destruct (Nat.ltb_spec 32 (S (slen e))); [auto|lia]. Qed.
Lemma other_port transport ip port : transport <> "tcp" -> nochar ":" ip -> nochar ":" port -> slen (get_end_point transport ip port) <= 31 ->
  get_socket_port (get_end_point transport ip port) = Ok ("//" +++ ip +++ "-" +++ port).
Proof.
  intros T Ni Np L. unfold get_socket_port. destruct (Nat.ltb_spec 32 (S (slen (get_end_point transport ip port)))); [lia|].
  unfold get_end_point. apply String.eqb_neq in T. rewrite T.
  change ("://" +++ ip +++ "-" +++ port) with (String ":" ("//" +++ ip +++ "-" +++ port)). rewrite after_last_app; auto.
  assert (forall a b, nochar ":" a -> nochar ":" b -> nochar ":" (a +++ b)) as A.
  { clear. induction a as [|d a IH]; cbn; auto. intros b Ha Hb. apply nochar_cons in Ha as (? & ?). apply nochar_cons. auto. }
  cbn. repeat (apply nochar_cons; split; [discriminate|]). apply A; auto. apply nochar_cons. split; [discriminate|auto].
Qed.
Lemma end_point_inj transport ip p q : get_end_point transport ip p = get_end_point transport ip q -> p = q.
Proof. unfold get_end_point. intros H. repeat apply sapp_inv_head in H. exact H. Qed.
Lemma controller_inj a b : get_controller_end_point a = get_controller_end_point b -> a = b.
Proof. unfold get_controller_end_point. intros H. apply sapp_inv_head in H. eapply sapp_inv_tail; eauto. Qed.
Lemma controller_publisher a : get_controller_end_point a <> get_publisher_end_point.
Proof.
  unfold get_controller_end_point, get_publisher_end_point. intros H. change "inproc://publisher" with ("inproc://" +++ "publisher") in H.
  apply sapp_inv_head in H. pose proof (f_equal slen H) as L. rewrite slen_app in L. change (slen "_controller") with 11 in L. change (slen "publisher") with 9 in L. lia.
Qed.

(** ** Free ports *)
Lemma try_ports_spec transport ip ports binds : forall k n l p, try_ports k n transport ip ports binds = (l, p) ->
  let e i := get_end_point transport ip (dec_of_Z (ports i)) in
  (forall i x, nth_error l i = Some x -> x = e (n + i)) /\
  ((exists j, List.length l = S j /\ S j <= k /\ p = dec_of_Z (ports (n + j)) /\ binds (n + j) (e (n + j)) = true /\ forall i, i < j -> binds (n + i) (e (n + i)) = false) \/
   (p = "" /\ List.length l = k /\ forall i, i < k -> binds (n + i) (e (n + i)) = false)).
Proof.
  induction k as [|k IH]; intros n l p; cbn [try_ports]; cbv zeta.
  - intros [= <- <-]. split; [intros [|i] x; discriminate|]. right. repeat split; auto. lia.
  - destruct (binds n _) eqn:B.
    + intros [= <- <-]. split.
      * intros [|[|i]] x; cbn; try discriminate. rewrite Nat.add_0_r. congruence.
      * left. exists 0. rewrite Nat.add_0_r. repeat split; auto; lia.
    + destruct (try_ports k (S n) transport ip ports binds) as [l' p'] eqn:E. intros [= <- <-]. destruct (IH _ _ _ E) as (I1 & I2). cbv zeta in *.
      split.
      * intros [|i] x; cbn; [rewrite Nat.add_0_r; congruence|]. intros H. rewrite <- Nat.add_succ_comm. eauto.
      * destruct I2 as [(j & L & K & P & Bj & F)|(P & L & F)]; [left; exists (S j)|right]; rewrite <- ?Nat.add_succ_comm in *; cbn [List.length].
        -- split; [lia|]. split; [lia|]. split; [exact P|]. split; [exact Bj|]. intros [|i] Hi; rewrite ?Nat.add_0_r, <- ?Nat.add_succ_comm; auto. apply F. lia.
        -- split; [exact P|]. split; [lia|]. intros [|i] Hi; rewrite ?Nat.add_0_r, <- ?Nat.add_succ_comm; auto. apply F. lia.
Qed.
Lemma dec_nonempty z : dec_of_Z z <> "".
Proof. rewrite dec_of_Z_cases. destruct (z <? 0)%Z; [discriminate|apply dec_of_N_nonempty]. Qed.

(** ** Temporary directory *)
Lemma remove_sep_slash p : remove_ending_separator (p +++ "/") = Ok p.
Proof.
  unfold remove_ending_separator. rewrite slen_app. change (slen "/") with 1. rewrite Nat.add_1_r.
  now rewrite (sdrop_app (slen p)), (stake_app (slen p)).
Qed.
Lemma last_char p : p <> "" -> exists q c, p = q +++ String c "".
Proof.
  induction p as [|a p IH]; [congruence|]. intros _. destruct p as [|b p]; [exists "", a; reflexivity|].
  destruct IH as (q & c & ->); [discriminate|]. exists (String a q), c. reflexivity.
Qed.
Lemma remove_sep_none p : p <> "" -> (forall q, p <> q +++ "/") -> remove_ending_separator p = Ok p.
Proof.
  intros N H. destruct (last_char p N) as (q & c & ->). unfold remove_ending_separator. rewrite slen_app. change (slen (String c "")) with 1. rewrite Nat.add_1_r.
  rewrite (sdrop_app (slen q)) by auto. cbn [sprefix]. destruct (Ascii.eqb_spec "/" c) as [<-|]; auto. exfalso. eapply H. reflexivity.
Qed.
