From Verif Require Import Base BaseFacts Json JsonText Auth Message Dap DapSpec DapProofs DapQueue DapMain DapAttach DapLive DapConnect DapConnectSpec.
From Coq Require Import Wellfounded.

Lemma frames_stream bodies : Forall adapter_message bodies -> dap_stream bodies (sconcat (map dap_frame bodies)).
Proof. intros F. exists (map dap_frame bodies). split; auto. induction F as [|b l (L & _) F IH]; cbn; constructor; auto. now apply frame_message. Qed.
Lemma answers_app n l m l' : answers n l -> answers m l' -> answers (n + m) (l ++ l').
Proof. intros A B. induction A; cbn; auto; [now apply answers_event|now apply answers_one]. Qed.
Lemma answers_split l1 : forall n l2, answers n (l1 ++ l2) -> exists a b, answers a l1 /\ answers b l2 /\ n = a + b.
Proof.
  induction l1 as [|x l1 IH]; cbn; intros n l2 A; [exists 0, n; repeat split; auto; constructor|].
  inversion A as [|? ? ? Na A'|? ? ? Ya A']; subst; destruct (IH _ _ A') as (a & b & A1 & A2 & ->).
  - exists a, b. repeat split; auto. now apply answers_event.
  - exists (S a), b. repeat split; auto. now apply answers_one.
Qed.
Lemma answers_most n l : answers n l -> n <= 1 -> at_most_one is_answer l.
Proof.
  intros A Ln a x b y d -> X Y. apply answers_split in A as (n1 & n2 & _ & A & ->). inversion A as [|? ? ? Na A'|? ? ? Ya A']; subst; [contradiction|].
  apply answers_split in A' as (n3 & n4 & _ & A' & ->). inversion A' as [|? ? ? Na' A''|? ? ? Ya' A'']; subst; [contradiction|]. lia.
Qed.
Lemma answers_none l : answers 0 l -> forall raw, List.In raw l -> ~ is_answer raw.
Proof. intros A. remember 0 as n. induction A; intros x []; subst; auto; discriminate. Qed.
Lemma stream_nil s : dap_stream [] s -> s = "".
Proof. intros (ts & F & ->). inversion F. reflexivity. Qed.
Lemma sent_out_app a b : sent_out (a ++ b) = (sent_out a ++ sent_out b)%list.
Proof. apply flat_map_app. Qed.

(** What the handlers log. *)
Definition calm (l : list action) : Prop := sent_out l = [] /\ requests l = [] /\ replies l = [].
Lemma calm_app a b : calm a -> calm b -> calm (a ++ b).
Proof. intros (A1 & A2 & A3) (B1 & B2 & B3). unfold calm, sent_out, requests, replies in *. rewrite !flat_map_app, A1, A2, A3. auto. Qed.
Section Calm.
  Context (E : dapenv).
  Definition calmly {A} (p : D A) : Prop := forall c, exists new, c_log (fst (p c)) = (c_log c ++ new)%list /\ calm new.
  Lemma calm_nil : calm []. Proof. repeat split. Qed.
  Lemma calmly_bind {A B} (p : D A) (f : A -> D B) : calmly p -> (forall a, calmly (f a)) -> calmly (dbind p f).
  Proof.
    intros Hp Hf c. destruct (Hp c) as (n1 & L1 & C1). unfold dbind. destruct (p c) as [c' [a|e|w|]]; cbn in *; eauto.
    destruct (Hf a c') as (n2 & L2 & C2). exists (n1 ++ n2)%list. rewrite L2, L1, app_assoc. split; auto using calm_app.
  Qed.
  Lemma calmly_same {A} (p : D A) : (forall c, c_log (fst (p c)) = c_log c) -> calmly p.
  Proof. intros H c. exists []. rewrite app_nil_r. split; [apply H|apply calm_nil]. Qed.
  Lemma calmly_lift {A} (r : res A) : calmly (dlift r).
  Proof. now apply calmly_same. Qed.
  Lemma calmly_forward j : calmly (forward_event E j).
  Proof.
    intros c. unfold forward_event.
    match goal with |- context [fst (?p ?c')] => assert (calmly p) as Q; [|destruct (Q c') as (new & L & C)] end.
    { apply calmly_bind; [apply calmly_lift|intros _]. apply calmly_bind; [now apply calmly_same|intros n].
      apply calmly_bind; [now apply calmly_same|intros ph]. apply calmly_bind; [apply calmly_lift|intros w]. intros c'. exists [APublish w]. repeat split. }
    exists (ACallback j :: new). rewrite L. cbn. rewrite <- app_assoc. split; [reflexivity|]. apply (calm_app [ACallback j]); [repeat split|auto].
  Qed.
  Lemma calmly_event P j : handles_events E P -> calmly (handle_event E j).
  Proof.
    intros (_ & Q) c. unfold handle_event. cbn [c_log c_parent log]. specialize (Q (c_log c ++ [AEvent j])%list (c_parent c) j).
    destruct (dp_event E (c_log c ++ [AEvent j]) (c_parent c) j) as [l r]. cbn in Q.
    assert (calmly (dbind (ucalls E l) (fun _ => dlift r))) as K.
    { apply calmly_bind; [|intros; apply calmly_lift]. induction l as [|u l IH]; cbn [ucalls]; [now apply calmly_same|].
      destruct (Q u (or_introl eq_refl)) as (j' & ->). apply calmly_bind; [apply calmly_forward|intros _]. apply IH. intros u I. apply Q. cbn. auto. }
    destruct (K (log (AEvent j) c)) as (new & L & C). exists (AEvent j :: new). rewrite L. cbn. rewrite <- app_assoc. split; [reflexivity|]. apply (calm_app [AEvent j]); [repeat split|auto].
  Qed.

  (** The queue: the answers are sent on. *)
  Lemma process_queue_calm P q : handles_events E P -> forall n c c', answers n q -> process_queue E q c = (c', Done tt) ->
    sent_out (c_log c') = sent_out (c_log c) /\ requests (c_log c') = requests (c_log c) /\
    List.length (replies (c_log c')) = List.length (replies (c_log c)) + n /\ c_owed c' = match n with 0 => c_owed c | _ => false end.
  Proof.
    intros Hh. induction q as [|raw q IH]; intros n c c' A H; cbn [process_queue] in H.
    - injection H as <-. inversion A; subst. cbn. auto.
    - destruct (process_message E raw (set_queue (raw :: q) c)) as [c1 [[]| | |]] eqn:M; try discriminate.
      assert (exists k m, n = k + m /\ answers m q /\ sent_out (c_log c1) = sent_out (c_log c) /\ requests (c_log c1) = requests (c_log c) /\
        List.length (replies (c_log c1)) = List.length (replies (c_log c)) + k /\ c_owed c1 = match k with 0 => c_owed c | _ => false end) as (k & m & -> & A' & S1 & S2 & S3 & S4).
      { pose proof (process_message_ok _ _ _ _ M) as (a & new & (j & Pj & Dj) & L & _ & _ & _ & _ & O).
        destruct Dj as [(Ev & ->)|(Nev & ->)].
        - assert (exists new, c_log c1 = (c_log c ++ new)%list /\ calm new) as (new' & L' & (C1 & C2 & C3)).
          { unfold process_message, dbind, dlift in M. rewrite Pj in M. cbn [io_of] in M.
            destruct (jget_mut "type" j) as [[ty j']| |] eqn:T; cbn [io_of] in M; try discriminate.
            destruct (jget_mut_field _ _ _ _ T) as (T1 & T2 & T3). specialize (T1 "event").
            assert (json_eqb ty (JStr "event") = true) as B by (apply json_eqb_str, T1, Ev). rewrite B in M.
            rewrite T3 in M by (unfold is_event in Ev; congruence). destruct (calmly_event P j Hh (set_queue (raw :: q) c)) as (nw & Ln & Cn). rewrite M in Ln. cbn in Ln. eauto. }
          exists 0, n. split; [reflexivity|]. split; [inversion A; subst; auto; exfalso|].
          { match goal with X : is_answer raw |- _ => destruct X as (j0 & P0 & N0) end. assert (j0 = j) by congruence. now subst. }
          unfold sent_out, requests, replies in *. rewrite L', !flat_map_app, C1, C2, C3, !app_nil_r. cbn in O. repeat split; auto.
        - inversion A as [|? ? ? Na A'|? ? ? Ya A']; subst; [exfalso; apply Na; exists j; auto|]. exists 1, n0. split; [reflexivity|]. split; [auto|].
          assert (c_log c1 = (c_log c ++ [AReply raw])%list) as ->.
          { unfold process_message, dbind, dlift in M. rewrite Pj in M. cbn [io_of] in M.
            destruct (jget_mut "type" j) as [[ty j']| |] eqn:T; cbn [io_of] in M; try discriminate.
            destruct (jget_mut_field _ _ _ _ T) as (T1 & T2 & T3). specialize (T1 "event").
            destruct (json_eqb ty (JStr "event")) eqn:B; [exfalso; apply Nev, T1, json_eqb_str, B|].
            destruct (jget_mut "command" j') as [[cmd j'']| |] eqn:C; cbn [io_of] in M; try discriminate.
            destruct (json_eqb cmd (JStr "disconnect")); unfold dmod, dret, reply in M; cbn [c_owed set_stop set_queue] in M;
              (destruct (c_owed c); [|discriminate]); injection M as <-; reflexivity. }
          unfold sent_out, requests, replies. rewrite !flat_map_app. cbn. rewrite !app_nil_r, app_length. cbn. repeat split; auto. apply O. }
      destruct (IH _ _ _ A' H) as (R1 & R2 & R3 & R4). rewrite R1, R2, R3, R4, S1, S2, S3, S4. repeat split; auto; [lia|]. destruct k, m; auto.
  Qed.
End Calm.

(** A round up to the TCP socket, for a client that is not in parallel mode or is past the handshake. *)
Definition mid (h k : bool) (c : client) : client :=
  let c := if h then match c_hdr c with [] => c | m :: r => log (AAck false) (set_hdr r m c) end else c in
  if k then match c_ctl c with [] => c | m :: r => log (AForward m) (set_ctl r true c) end else c.
Definition ready (h k : bool) (c : client) : Prop := (h = true -> c_hdr c <> []) /\ (k = true -> c_ctl c <> []).
Section Mid.
  Context (E : dapenv).
  Lemma iteration_mid h k t c : ready h k c -> c_attach c = false ->
    iteration E h k t c = dbind (when t handle_tcp_socket) (fun _ => process_message_queue E) (mid h k c).
  Proof.
    intros (Rh & Rk) Ha. unfold iteration, mid.
    assert (exists c1, when h handle_header_socket c = (c1, Done tt) /\ c1 = (if h then match c_hdr c with [] => c | m :: r => log (AAck false) (set_hdr r m c) end else c) /\ c_ctl c1 = c_ctl c /\ c_attach c1 = false)
      as (c1 & H1 & <- & H2 & H3).
    { destruct h; cbn [when].
      - unfold handle_header_socket. destruct (c_hdr c) eqn:Q; [exfalso; now apply (Rh eq_refl)|]. eexists. repeat split. exact Ha.
      - exists c. auto. }
    unfold dbind at 1. rewrite H1.
    assert (exists c2, when k (handle_control_socket E) c1 = (c2, Done tt) /\ c2 = (if k then match c_ctl c1 with [] => c1 | m :: r => log (AForward m) (set_ctl r true c1) end else c1)) as (c2 & K1 & <-).
    { destruct k; cbn [when]; [|eexists; split; reflexivity]. unfold handle_control_socket. rewrite H2. destruct (c_ctl c) eqn:Q; [exfalso; now apply (Rk eq_refl)|].
      cbn [c_attach set_ctl]. rewrite H3. eexists. split; reflexivity. }
    unfold dbind at 1. rewrite K1. reflexivity.
  Qed.
  Lemma mid_hdr h k x c : ready h k c -> mid h k (add_hdr x c) = add_hdr x (mid h k c).
  Proof.
    intros (Rh & Rk). destruct c as [net ctl hdr owed parent stop attach queue stopped ids lg]. unfold mid, add_hdr, set_hdr, set_ctl, log. cbn in *.
    destruct h; [destruct hdr; [exfalso; now apply (Rh eq_refl)|]|]; cbn; (destruct k; [destruct ctl; [exfalso; now apply (Rk eq_refl)|]|]); reflexivity.
  Qed.
  Lemma mid_ctl h k x c : ready h k c -> mid h k (add_ctl x c) = add_ctl x (mid h k c).
  Proof.
    intros (Rh & Rk). destruct c as [net ctl hdr owed parent stop attach queue stopped ids lg]. unfold mid, add_ctl, set_hdr, set_ctl, log. cbn in *.
    destruct h; [destruct hdr; [exfalso; now apply (Rh eq_refl)|]|]; cbn; (destruct k; [destruct ctl; [exfalso; now apply (Rk eq_refl)|]|]); reflexivity.
  Qed.
  Lemma mid_net h k x c : mid h k (add_net x c) = add_net x (mid h k c).
  Proof.
    destruct c as [net ctl hdr owed parent stop attach queue stopped ids lg]. unfold mid, add_net, set_net, set_hdr, set_ctl, log. cbn in *.
    destruct h; [destruct hdr|]; cbn; (destruct k; [destruct ctl|]); reflexivity.
  Qed.
  Lemma mid_keeps h k c : c_net (mid h k c) = c_net c /\ c_queue (mid h k c) = c_queue c /\ c_attach (mid h k c) = c_attach c /\ c_stop (mid h k c) = c_stop c.
  Proof. unfold mid. destruct h; [destruct (c_hdr c)|]; destruct k; cbn; try destruct (c_ctl c); cbn; auto. Qed.
  Lemma ready_hdr h k x c : ready h k c -> ready h k (add_hdr x c).
  Proof. intros (Rh & Rk). split; cbn; auto. destruct (c_hdr c); cbn; discriminate. Qed.
  Lemma ready_ctl h k x c : ready h k c -> ready h k (add_ctl x c).
  Proof. intros (Rh & Rk). split; cbn; auto. destruct (c_ctl c); cbn; discriminate. Qed.
End Mid.

Section World.
  Context (E : dapenv) {A : Type} (adapter : A -> string -> A * list string) (P : string -> Prop) (todo0 : list question).
  Hypothesis Ha : answers_each adapter.
  Hypothesis Hh : handles_events E P.
  Notation world := (world (A := A)).
  Notation wstep := (wstep E adapter false).

  Definition cur (w : world) : client := match w_round w with None => w_c w | Some (h, k, _) => mid h k (w_c w) end.
  Definition owes (c : client) : nat := if c_owed c then 1 else 0.
  Record facts (bodies : list string) (c : client) (note : bool) (pipe : string) (seen : nat) (todo : list question) : Prop := {
    f_attach : c_attach c = false; f_queue : c_queue c = [];
    f_stream : dap_stream bodies (sconcat (c_net c) +++ pipe); f_bodies : Forall adapter_message bodies;
    f_tail : Forall (fun x => x <> "") (tl (c_net c)); f_note : note = true -> c_net c = [] /\ bodies <> []; f_some : c_net c <> [] -> bodies <> [];
    f_seen : seen <= List.length (sent_out (c_log c)); f_count : exists n, answers n bodies /\ n + (List.length (sent_out (c_log c)) - seen) = owes c;
    f_parent : P (c_parent c); f_headers : Forall P (c_hdr c); f_todo : headers_meet P todo;
    f_replies : List.length (replies (c_log c)) + owes c = List.length (requests (c_log c));
    f_asked : (requests (c_log c) ++ c_ctl c ++ asked_requests todo)%list = asked_requests todo0;
    f_stop : c_stop c = true -> c_owed c = false }.
  Definition holds (w : world) : Prop := exists bodies, facts bodies (cur w) (w_note w) (w_pipe w) (w_seen w) (w_todo w).
  Definition inv (w : world) : Prop :=
    w_dead w = false /\ holds w /\
    match w_round w with
    | None => True
    | Some (h, k, t) => t = true /\ ready h k (w_c w) /\ c_net (w_c w) <> [] /\ c_stop (w_c w) = false /\ snd (handle_tcp (c_net (w_c w)) []) = Waits
    end.

  Lemma mid_facts h k bodies c note pipe seen todo : facts bodies c note pipe seen todo -> ready h k c -> (k = true -> c_owed c = false) -> c_stop c = false ->
    facts bodies (mid h k c) note pipe seen todo.
  Proof.
    intros F (Rh & Rk) Ko St.
    assert (facts bodies (mid h false c) note pipe seen todo /\ c_ctl (mid h false c) = c_ctl c /\ c_owed (mid h false c) = c_owed c /\ c_stop (mid h false c) = false) as (F' & C1 & C2 & C3).
    { destruct h; [|auto]. unfold mid. destruct (c_hdr c) as [|m r] eqn:Q; [exfalso; now apply (Rh eq_refl)|]. split; [|cbn; auto].
      destruct F. rewrite Q in f_headers0. inversion f_headers0; subst.
      constructor; cbn [c_attach c_queue c_net c_log c_parent c_hdr c_ctl c_owed c_stop set_hdr log]; unfold owes in *; cbn [c_owed set_hdr log] in *; auto; unfold sent_out, requests, replies in *; rewrite ?flat_map_app, ?app_nil_r; cbn [flat_map]; rewrite ?app_nil_r; auto. }
    destruct k; [|exact F']. replace (mid h true c) with (match c_ctl (mid h false c) with [] => mid h false c | m :: r => log (AForward m) (set_ctl r true (mid h false c)) end) by reflexivity.
    set (c1 := mid h false c) in *. clearbody c1. rewrite C1. destruct (c_ctl c) as [|m r] eqn:Q; [exact F'|].
    destruct F'. specialize (Ko eq_refl). rewrite Ko in C2. unfold owes in *. rewrite C2 in *.
    constructor; cbn [c_attach c_queue c_net c_log c_parent c_hdr c_ctl c_owed c_stop set_ctl log owes]; auto; unfold sent_out, requests, replies in *; rewrite ?flat_map_app, ?app_length; cbn; try lia.
    - destruct f_count0 as (n & N1 & N2). exists n. split; auto. lia.
    - rewrite <- f_asked0, C1, <- app_assoc. reflexivity.
  Qed.

  (** A round that goes on. *)
  Lemma settle_ok h k t w : w_round w = Some (h, k, t) -> w_dead w = false -> holds w -> ready h k (w_c w) -> (t = true -> c_net (w_c w) <> []) -> c_stop (w_c w) = false ->
    inv (settle E w) /\
    ((settle E w = w /\ t = true) \/
     exists c', settle E w = with_round None (with_c c' w) /\ c_hdr c' = c_hdr (cur w) /\ c_ctl c' = c_ctl (cur w) /\ sent_out (c_log c') = sent_out (c_log (cur w)) /\
       (if t then List.length (c_net c') < List.length (c_net (cur w)) else c_net c' = c_net (cur w))).
  Proof.
    intros R D (bodies & F) Rd Tn St. unfold settle. rewrite R. unfold holds, cur in *. rewrite R in *.
    destruct (mid_keeps h k (w_c w)) as (M1 & M2 & M3 & M4).
    rewrite iteration_mid by (auto; rewrite <- M3; apply (f_attach _ _ _ _ _ _ F)).
    set (c := mid h k (w_c w)) in *.
    assert (forall b1 b2 net', bodies = (b1 ++ b2)%list -> dap_stream b2 (sconcat net' +++ w_pipe w) -> Forall (fun x => x <> "") (tl net') ->
      (w_note w = true -> net' = [] /\ b2 <> []) -> (net' <> [] -> b2 <> []) ->
      exists c', process_message_queue E (set_net net' (set_queue b1 c)) = (c', Done tt) /\ facts b2 c' (w_note w) (w_pipe w) (w_seen w) (w_todo w) /\
        c_hdr c' = c_hdr c /\ c_ctl c' = c_ctl c /\ sent_out (c_log c') = sent_out (c_log c) /\ c_net c' = net') as Proc.
    { clearbody c. intros b1 b2 net' -> S2 T2 N2 Sm2. destruct F. apply Forall_app in f_bodies0 as (B1 & B2). destruct f_count0 as (n & An & Cn).
      apply answers_split in An as (n1 & n2 & A1 & A2 & ->). assert (owes c <= 1) as O1 by (unfold owes; destruct (c_owed c); lia).
      destruct (process_queue_done E b1 (set_net net' (set_queue b1 c))) as (c' & Hq).
      - eapply Forall_impl; [|exact B1]. intros x (_ & X). exact X.
      - intros raw j c2 _ Pr Ev Pc. apply (proj1 Hh raw); auto. rewrite Pc. exact f_parent0.
      - apply (answers_most n1); auto. lia.
      - intros raw I X. cbn. unfold owes in Cn. destruct (c_owed c); auto. assert (n1 = 0) by lia. subst n1. exfalso. exact (answers_none _ A1 raw I X).
      - exists c'. unfold process_message_queue. cbn [c_queue set_net set_queue]. split; [exact Hq|].
        pose proof (process_queue_ok _ _ _ _ Hq) as (acts & new & D2 & L & _ & (K1 & K2 & K3 & K4 & K5 & _) & Q & Ss).
        destruct (process_queue_calm E P b1 Hh n1 _ _ A1 Hq) as (Q1 & Q2 & Q3 & Q4).
        cbn [c_net c_ctl c_hdr c_parent c_attach c_log c_owed set_net set_queue] in *.
        assert (owes c' + n1 = owes c) as Ow by (clear - Q4 Cn; unfold owes in *; rewrite Q4; destruct n1; destruct (c_owed c); cbn; lia).
        split; [|split; [exact K3|split; [exact K2|split; [exact Q1|exact K1]]]].
        constructor.
        + now rewrite K5.
        + exact Q.
        + now rewrite K1.
        + exact B2.
        + now rewrite K1.
        + now rewrite K1.
        + now rewrite K1.
        + now rewrite Q1.
        + exists n2. split; [exact A2|]. rewrite Q1. clear - Cn Ow. lia.
        + now rewrite K4.
        + now rewrite K3.
        + exact f_todo0.
        + rewrite Q3, Q2. clear - f_replies0 Ow. lia.
        + now rewrite Q2, K2.
        + intros X. apply Ss in X as [X|(raw & I & X)]; [cbn in X; rewrite Q4; destruct n1; auto; congruence|]. cbn in Q4. rewrite Q4. destruct n1; auto.
          exfalso. destruct X as (j & Pj & Nj & _). exact (answers_none _ A1 raw I (ex_intro _ j (conj Pj Nj))). }
    destruct t; cbn [when].
    - unfold dbind, handle_tcp_socket. pose proof (f_queue _ _ _ _ _ _ F) as Fq. rewrite Fq.
      destruct (handle_tcp_stream _ _ _ [] (f_stream _ _ _ _ _ _ F)) as (b1 & b2 & used & net' & o & Ht & Eb & En & Ho). rewrite Ht. cbn [app].
      destruct Ho as [(-> & -> & _)|(-> & Nb1 & Nu & S2)].
      + split; [|left; auto]. split; [auto|]. split; [exists bodies; unfold cur; rewrite R; exact F|]. rewrite R. repeat split; auto; try apply Rd. rewrite <- M1, Ht. reflexivity.
      + assert (Forall (fun x => x <> "") net') as T2.
        { pose proof (f_tail _ _ _ _ _ _ F) as T. rewrite En in T. destruct used as [|u used]; [congruence|]. cbn in T. apply Forall_app in T. apply T. }
        destruct (Proc b1 b2 net' Eb S2) as (c' & Hp & F' & H1 & H2 & H3 & H4).
        * destruct net'; cbn; auto. now inversion T2.
        * intros N. destruct (f_note _ _ _ _ _ _ F N) as (Z & _). rewrite Z in En. destruct used; [congruence|discriminate En].
        * intros N ->. apply stream_nil in S2. destruct net' as [|x net']; [congruence|]. inversion T2 as [|? ? X1 X2]; subst. destruct x; [congruence|]. cbn in S2. discriminate S2.
        * rewrite Hp. split; [|right; exists c'; rewrite H4, En, app_length; repeat split; auto; destruct used; [congruence|cbn; lia]].
          split; [exact D|]. split; [|exact I]. exists b2. exact F'.
    - unfold dbind, dret. assert (set_net (c_net c) (set_queue [] c) = c) as Ec. { destruct F as [? Fq]. rewrite <- Fq. destruct c; reflexivity. }
      destruct (Proc [] bodies (c_net c) eq_refl) as (c' & Hp & F' & H1 & H2 & H3 & H4); try apply F. rewrite Ec in Hp. rewrite Hp.
      split; [|right; exists c'; repeat split; auto]. split; [exact D|]. split; [|exact I]. exists bodies. exact F'.
  Qed.

  (** The client now. *)
  Lemma now_cur w : inv w -> c_hdr (now E w) = c_hdr (cur w) /\ c_ctl (now E w) = c_ctl (cur w) /\ c_owed (now E w) = c_owed (cur w) /\ c_log (now E w) = c_log (cur w) /\ c_stop (now E w) = c_stop (cur w).
  Proof.
    intros (D & (bodies & F) & I). unfold now, cur in *. destruct (w_round w) as [[[h k] t]|]; [|auto]. destruct I as (-> & Rd & N & St & W).
    destruct (mid_keeps h k (w_c w)) as (M1 & M2 & M3 & M4). rewrite iteration_mid by (auto; rewrite <- M3; apply (f_attach _ _ _ _ _ _ F)).
    unfold dbind, when, handle_tcp_socket. rewrite M1, (f_queue _ _ _ _ _ _ F). destruct (handle_tcp (c_net (w_c w)) []) as [[n q] o]. cbn in W. subst o. cbn. auto.
  Qed.
  Lemma free_cur w : inv w -> free (now E w) <-> free (cur w).
  Proof. intros I. destruct (now_cur w I) as (H1 & H2 & H3 & _). unfold free. now rewrite H1, H2, H3. Qed.

  Definition m1 (w : world) := List.length (w_todo w).
  Definition m2 (w : world) := List.length (c_hdr (cur w)) + List.length (c_ctl (cur w)).
  Definition m3 (w : world) := List.length (sent_out (c_log (cur w))) - w_seen w.
  Definition m4 (w : world) := slen (w_pipe w) + (if w_note w then 1 else 0).
  Definition m5 (w : world) := match w_round w with None => S (List.length (c_net (w_c w))) | Some _ => 0 end.
  Definition less (w' w : world) : Prop :=
    m1 w' < m1 w \/ (m1 w' = m1 w /\ (m2 w' < m2 w \/ (m2 w' = m2 w /\ (m3 w' < m3 w \/ (m3 w' = m3 w /\ (m4 w' < m4 w \/ (m4 w' = m4 w /\ m5 w' < m5 w))))))).

  (** More from the network. *)
  Lemma net_facts bodies c note note' pipe p x seen todo : facts bodies c note pipe seen todo -> pipe = x +++ p -> (x = "" -> c_net c = [] /\ bodies <> []) -> note' = false ->
    facts bodies (add_net x c) note' p seen todo.
  Proof.
    intros F Ep Ex ->. destruct F. subst pipe. rewrite <- sapp_assoc in f_stream0. replace (sconcat (c_net c) +++ x) with (sconcat (c_net (add_net x c))) in f_stream0
      by (cbn; rewrite sconcat_app; cbn; now rewrite sapp_nil_r).
    constructor; auto; try discriminate.
    - cbn. destruct (c_net c) as [|y l] eqn:N; cbn; [constructor|]. apply Forall_app. split; auto. constructor; auto. intros ->. destruct (Ex eq_refl). discriminate.
    - intros _. destruct x as [|ch x]; [apply Ex, eq_refl|]. intros ->. apply stream_nil in f_stream0. cbn in f_stream0. rewrite sconcat_app in f_stream0. cbn in f_stream0.
      destruct (sconcat (c_net c)); discriminate.
  Qed.
  Lemma net_step x note p w : inv w -> w_pipe w = x +++ p -> (x = "" -> c_net (w_c w) = [] /\ w_note w = true) -> note = false -> (w_note w = true -> x = "") -> slen p + 0 < m4 w ->
    let w' := settle E (with_pipe note p (with_c (add_net x (w_c w)) w)) in inv w' /\ less w' w.
  Proof.
    intros (D & (bodies & F) & I) Ep Ex -> Nx Lt w'. set (w1 := with_pipe false p (with_c (add_net x (w_c w)) w)).
    assert (cur w1 = add_net x (cur w)) as C1. { unfold cur, w1. cbn. destruct (w_round w) as [[[h k] t]|]; [apply mid_net|reflexivity]. }
    assert (holds w1) as H1.
    { exists bodies. rewrite C1. cbn. eapply net_facts; eauto. intros X. destruct (Ex X) as (Y1 & Y2). split; [|apply (f_note _ _ _ _ _ _ F Y2)].
      apply (f_note _ _ _ _ _ _ F Y2). }
    assert (less w1 w) as L1.
    { right. split; [reflexivity|]. right. unfold m2. rewrite C1. split; [reflexivity|]. right. unfold m3. rewrite C1. split; [reflexivity|]. left. unfold m4 in *. cbn. lia. }
    destruct (w_round w) as [[[h k] t]|] eqn:R.
    - destruct I as (-> & Rd & N & St & W). assert (w_round w1 = Some (h, k, true)) as R1 by exact R.
      destruct (settle_ok h k true w1 R1 D H1 Rd) as (I' & L'); [cbn; destruct (c_net (w_c w)); cbn; discriminate|exact St|]. split; [exact I'|].
      unfold w'. fold w1. destruct L' as [(-> & _)|(c' & -> & A1 & A2 & A3 & _)]; [exact L1|].
      unfold less, m1, m2, m3, m4 in *. cbn in *. rewrite A1, A2, A3. rewrite C1 in *. cbn in *. lia.
    - assert (w' = w1) as -> by (unfold w', settle; fold w1; replace (w_round w1) with (@None (bool*bool*bool)) by (symmetry; exact R); reflexivity).
      split; [|exact L1]. split; [exact D|]. split; [exact H1|]. cbn. now rewrite R.
  Qed.

  Lemma step_ok w w' : inv w -> wstep w w' -> inv w' /\ less w' w.
  Proof.
    intros I S. destruct S.
    - (* header *) apply free_cur in H0; auto. destruct I as (D & (bodies & F) & I).
      assert (cur (with_todo l (with_c (add_hdr h (w_c w)) w)) = add_hdr h (cur w)) as C1.
      { unfold cur. cbn. destruct (w_round w) as [[[h' k] t]|]; [apply mid_hdr, I|reflexivity]. }
      split; [|left; unfold m1; cbn; rewrite H; cbn; lia]. split; [exact D|]. split.
      + exists bodies. rewrite C1. cbn. destruct F. rewrite H in *. constructor; auto.
        * cbn. apply Forall_app. split; auto. constructor; auto. apply f_todo0. cbn. auto.
        * intros x X. apply f_todo0. cbn. auto.
      + cbn. destruct (w_round w) as [[[h' k] t]|]; auto. destruct I as (-> & Rd & N & St & W). repeat split; auto using ready_hdr; apply (ready_hdr h' k h); auto.
    - (* request *) apply free_cur in H0; auto. destruct I as (D & (bodies & F) & I).
      assert (cur (with_todo l (with_c (add_ctl r (w_c w)) w)) = add_ctl r (cur w)) as C1.
      { unfold cur. cbn. destruct (w_round w) as [[[h' k] t]|]; [apply mid_ctl, I|reflexivity]. }
      split; [|left; unfold m1; cbn; rewrite H; cbn; lia]. split; [exact D|]. split.
      + exists bodies. rewrite C1. cbn. destruct F. rewrite H in *. constructor; auto.
        * intros x X. apply f_todo0. cbn. auto.
        * cbn. rewrite <- f_asked0. cbn. rewrite <- app_assoc. reflexivity.
      + cbn. destruct (w_round w) as [[[h' k] t]|]; auto. destruct I as (-> & Rd & N & St & W). repeat split; auto; apply (ready_ctl h' k r); auto.
    - (* notification *) apply net_step; auto.
      + intros _. split; auto. destruct I as (D & (bodies & F) & I). destruct (f_note _ _ _ _ _ _ F H) as (Z & _). unfold cur in Z.
        destruct (w_round w) as [[[h k] t]|]; auto. destruct (mid_keeps h k (w_c w)) as (M1 & _). congruence.
      + unfold m4. rewrite H. lia.
    - discriminate.
    - (* bytes *) apply net_step; auto; try congruence. unfold m4. rewrite H, H0, slen_app. destruct x; [congruence|cbn; lia].
    - (* adapter *) destruct (now_cur w I) as (_ & _ & _ & Nl & _). rewrite Nl in H. clear Nl. destruct I as (D & (bs & F) & I).
      assert (w_seen w < List.length (sent_out (c_log (cur w)))) as Ls by (apply nth_error_Some; congruence).
      split; [|right; split; [reflexivity|right; split; [reflexivity|left; unfold m3; cbn; unfold cur in *; cbn; lia]]]. split; [exact D|]. split; [|exact I].
      specialize (Ha (w_ad w) b). rewrite H0 in Ha. cbn in Ha. destruct Ha as (Hb & Hn). exists (bs ++ bodies)%list. destruct F.
      change (cur (with_adapter a (w_pipe w +++ sconcat (map dap_frame bodies)) w)) with (cur w). cbn.
      constructor; auto.
      + rewrite <- sapp_assoc. apply stream_app; auto using frames_stream.
      + apply Forall_app. auto.
      + intros N. destruct (f_note0 N). split; auto. destruct bs; [congruence|discriminate].
      + intros N. specialize (f_some0 N). destruct bs; [congruence|discriminate].
      + destruct f_count0 as (n & A1 & A2). exists (n + 1). split; [now apply answers_app|]. lia.
    - (* poll *) destruct I as (D & (bodies & F) & I). unfold cur in F. rewrite H in F. destruct H2 as (Pa & Ph & Pk & Pt).
      assert (ready h k (w_c w)) as Rd by (split; auto; intros X; apply Pk, X).
      set (w1 := with_round (Some (h, k, t)) w). assert (holds w1) as Hw1.
      { exists bodies. unfold cur. cbn. apply mid_facts; auto. intros X. apply Pk, X. }
      destruct (settle_ok h k t w1 eq_refl H0 Hw1 Rd Pt H1) as (I' & L'). split; [exact I'|].
      assert (cur w1 = mid h k (w_c w)) as C1 by reflexivity. assert (cur w = w_c w) as C0 by (unfold cur; now rewrite H).
      destruct (mid_keeps h k (w_c w)) as (M1 & _).
      assert (let c := mid h k (w_c w) in List.length (c_hdr c) + List.length (c_ctl c) < List.length (c_hdr (w_c w)) + List.length (c_ctl (w_c w)) \/ (h = false /\ k = false)) as Dec.
      { cbn. unfold mid. destruct h.
        - left. destruct (c_hdr (w_c w)) as [|m r] eqn:Q; [exfalso; now apply (Ph eq_refl)|]. destruct k; cbn; [|rewrite ?Q; cbn; lia]. destruct (c_ctl (w_c w)) eqn:Qc; cbn; rewrite ?Q, ?Qc; cbn; lia.
        - destruct k; auto. left. destruct (c_ctl (w_c w)) as [|m r] eqn:Q; [exfalso; now apply (Pk eq_refl)|]. cbn. lia. }
      cbn in Dec.
      destruct L' as [(L' & ->)|(c' & L' & A1 & A2 & A3 & A4)]; rewrite L'.
      + unfold less, m1, m2, m3, m4, m5. rewrite C1, C0, H. cbn. destruct Dec as [Dec|(-> & ->)]; [lia|]. cbn. lia.
      + unfold less, m1, m2, m3, m4, m5. rewrite C0, H. unfold cur. cbn. rewrite A1, A2, A3, C1. rewrite C1 in A4.
        destruct Dec as [Dec|(-> & ->)]; [lia|]. cbn in *. destruct t; [cbn in A4; lia|discriminate].
  Qed.

  (** There is always a step to take. *)
  Lemma step_or_served w : inv w -> served E todo0 w \/ exists w', wstep w w'.
  Proof.
    intros I. pose proof (now_cur w I) as (N1 & N2 & N3 & N4 & N5). pose proof (free_cur w I) as Fr. pose proof I as (D & (bodies & F) & B).
    destruct (w_note w) eqn:Nt; [right; eexists; now apply W_note|].
    destruct (w_pipe w) as [|ch p] eqn:Pp.
    2:{ right. eexists. apply (W_bytes _ _ _ w (String ch p) ""); auto; [rewrite Pp; now rewrite sapp_nil_r|discriminate]. }
    assert (sconcat (c_net (cur w)) +++ "" = sconcat (c_net (cur w))) as Z by apply sapp_nil_r.
    destruct (w_round w) as [[[h k] t]|] eqn:R.
    - exfalso. destruct B as (-> & Rd & N & St & W). unfold cur in *. rewrite R in *. destruct (mid_keeps h k (w_c w)) as (M1 & M2 & M3 & M4).
      pose proof (f_stream _ _ _ _ _ _ F) as S. rewrite M1 in S. destruct (handle_tcp_stream _ _ _ [] S) as (b1 & b2 & used & net' & o & Ht & Eb & En & Ho).
      rewrite Ht in W. cbn in W. subst o. destruct Ho as [(_ & _ & X)|(X & _)]; [|discriminate]. apply (f_some _ _ _ _ _ _ F); [congruence|auto].
    - assert (cur w = w_c w) as C by (unfold cur; now rewrite R). rewrite C in *.
      destruct (c_stop (w_c w)) eqn:St.
      { left. split; [exact D|]. rewrite N4. split; [|right; congruence]. pose proof (f_replies _ _ _ _ _ _ F) as X. unfold owes in X. rewrite (f_stop _ _ _ _ _ _ F St) in X. lia. }
      destruct (c_hdr (w_c w)) as [|x hr] eqn:Hd.
      2:{ right. eexists. apply (W_poll _ _ _ w true false false); auto. repeat split; auto; try discriminate. congruence. }
      destruct (c_net (w_c w)) as [|x nr] eqn:Nn.
      2:{ right. eexists. apply (W_poll _ _ _ w false false true); auto. repeat split; auto; try discriminate. congruence. }
      pose proof (f_stream _ _ _ _ _ _ F) as S. rewrite Nn in S. cbn in S. destruct (f_count _ _ _ _ _ _ F) as (n & An & Cn).
      assert (bodies = []) as ->. { destruct S as (ts & S1 & S2). inversion S1 as [|b t bs ts' (u & v & _ & _ & _ & _ & X) Y]; subst; auto. exfalso. cbn in S2.
        unfold dap_header in S2. destruct (sconcat _) in S2; discriminate. }
      inversion An; subst n. destruct (c_owed (w_c w)) eqn:Ow; unfold owes in Cn; rewrite Ow in Cn.
      { right. destruct (nth_error (sent_out (c_log (w_c w))) (w_seen w)) as [b|] eqn:Nb; [|apply nth_error_None in Nb; lia].
        destruct (adapter (w_ad w) b) as [a bodies] eqn:Ad. eexists. eapply W_adapter; eauto. now rewrite N4. }
      destruct (c_ctl (w_c w)) as [|x cr] eqn:Ct.
      2:{ right. eexists. apply (W_poll _ _ _ w false true false); auto. repeat split; auto; try discriminate. congruence. }
      assert (free (now E w)) as Fw by (apply Fr; repeat split; auto).
      destruct (w_todo w) as [|[h|r] l] eqn:Td.
      + left. split; [exact D|]. rewrite N4. split; [pose proof (f_replies _ _ _ _ _ _ F) as X; unfold owes in X; rewrite Ow in X; lia|]. left. repeat split; auto; try apply Fw.
        pose proof (f_asked _ _ _ _ _ _ F) as X. rewrite Ct in X. cbn in X. now rewrite !app_nil_r in X.
      + right. eexists. eapply W_header; eauto.
      + right. eexists. eapply W_request; eauto.
  Qed.
  Theorem inv_will w : inv w -> will wstep (served E todo0) w.
  Proof.
    remember (m1 w) as n1 eqn:E1. revert w E1. induction n1 as [n1 I1] using lt_wf_ind. intros w E1.
    remember (m2 w) as n2 eqn:E2. revert w E1 E2. induction n2 as [n2 I2] using lt_wf_ind. intros w E1 E2.
    remember (m3 w) as n3 eqn:E3. revert w E1 E2 E3. induction n3 as [n3 I3] using lt_wf_ind. intros w E1 E2 E3.
    remember (m4 w) as n4 eqn:E4. revert w E1 E2 E3 E4. induction n4 as [n4 I4] using lt_wf_ind. intros w E1 E2 E3 E4.
    remember (m5 w) as n5 eqn:E5. revert w E1 E2 E3 E4 E5. induction n5 as [n5 I5] using lt_wf_ind. intros w E1 E2 E3 E4 E5 I.
    destruct (step_or_served w I) as [S|S]; [now apply will_now|]. apply will_later; auto. intros w' S'. destruct (step_ok w w' I S') as (I' & L). unfold less in L.
    rewrite <- E1, <- E2, <- E3, <- E4, <- E5 in L.
    destruct L as [L|(L1 & [L|(L2 & [L|(L3 & [L|(L4 & L)])])])]; [eapply I1|eapply I2|eapply I3|eapply I4|eapply I5]; eauto.
  Qed.
  Lemma inv_start server a hello : dp_parallel E = false -> P "" -> headers_meet P todo0 -> Forall adapter_message hello -> answers 0 hello -> server = true \/ hello <> [] ->
    inv (world0 E server a hello todo0).
  Proof.
    intros Pl Pe Hm Fh Ah Sv. split; [reflexivity|]. split; [|exact I]. exists hello. unfold cur. cbn. rewrite Pl. constructor; cbn; auto; try discriminate; try (intros X; congruence).
    - now apply frames_stream.
    - intros N. split; auto. destruct server; [discriminate|]. destruct Sv; [discriminate|auto].
    - exists 0. split; auto.
  Qed.
  Lemma inv_runs w w' : inv w -> wruns E adapter false w w' -> inv w'.
  Proof. intros I R. induction R; auto. destruct (step_ok w1 w2); auto. Qed.
End World.
