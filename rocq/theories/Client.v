(** The shell socket as a client sees it: proofs. *)
From Verif Require Import Base BaseFacts Json JsonText Utf8 Utf8Proofs JsonTextProofs JsonParseProofs Auth Message MessageProofs WireSpec WireLemmas History HistoryProofs Comm Tree Kernel KernelSpec KernelLemmas
  Server ServerSpec ServerProofs SequentialSpec Sequential SequentialProofs AnsweredSpec Answered ClientSpec.

Section Client.
  Context {U : Type} (E : env U).
  Lemma sent_accepted q w : sent E q w -> accepted E w q.
  Proof.
    intros (th & tp & tm & tc & -> & Hd & Hh & Hp & Hm & Hc). unfold accepted.
    apply (wire_accept (e_crypto E) (e_auth E) (m_ids q) (sign (e_crypto E) (e_auth E) th tp tm tc) th tp tm tc (m_buffers (m_base q)) Hd q).
    repeat split; auto. apply verify_sign.
  Qed.
  (** What [serialize] makes of a message is a way of sending it. *)
  Lemma serialized_sent q w h : base_ok_json (m_base q) = true -> ~ In DELIMITER (m_ids q) -> serialize (e_crypto E) (e_auth E) h q = Ok w -> sent E q w.
  Proof.
    intros Hb Hd Hw. unfold base_ok_json in Hb. rewrite !andb_true_iff in Hb. destruct Hb as [[[B1 B2] B3] B4].
    apply serialize_shape in Hw as (th & tp & tm & tc & D1 & D2 & D3 & D4 & ->). exists th, tp, tm, tc. split; [reflexivity|]. split; auto.
    apply (json_ok_dump h) in B1 as (? & ? & ?), B2 as (? & ? & ?), B3 as (? & ? & ?), B4 as (? & ? & ?). repeat split; congruence.
  Qed.
  Lemma header_parses h id ty user session t : header_with h id ty user session -> dump EStrict h = Ok t -> parse t = Ok h.
  Proof.
    intros (date & m & -> & Hk & F1 & F2 & F3 & F4 & F5 & F6) Hd.
    assert (Hv : jvalid (JObj m) = true) by (apply jvalid_utf8, dump_strict_iff; eauto).
    assert (Hok : json_ok (JObj m) = true).
    { apply json_ok_spec. split; auto. clear Hd Hv.
      do 6 (destruct m as [|[? ?] m]; [discriminate|]). destruct m; [|discriminate]. injection Hk as -> -> -> -> -> ->.
      unfold jfield, mfind in *. cbn in *. injection F1 as ->. injection F2 as ->. injection F3 as ->. injection F4 as ->. injection F5 as ->. injection F6 as ->. reflexivity. }
    destruct (json_ok_dump EStrict _ Hok) as (t' & H1 & H2). congruence.
  Qed.
  Lemma accepted_header w q : accepted E w q -> json_ok (m_header (m_base q)) = true /\ ~ In DELIMITER (m_ids q).
  Proof.
    intros Ha. apply deserialize_ok_json in Ha as [Hb Hd]. split; auto. unfold base_ok_json in Hb. rewrite !andb_true_iff in Hb. tauto.
  Qed.
  Lemma answer_reads c q w e : e_eh E = EStrict -> sent E q w -> answers E (c, w) e -> exists r f, e = ESend c r f /\ reply_for E q f.
  Proof.
    intros He Hq (m & ty & r & f & id & rty & Ha & Hty & -> & Hw & Hn & Hi & Hp & Hh). cbn [fst snd] in *. exists r, f. split; auto.
    pose proof (sent_accepted _ _ Hq) as Hq'. assert (m = q) by (unfold accepted in *; congruence). subst m. destruct (accepted_header _ _ Hq') as [Hj Hd].
    cbn [well_sent] in Hw. apply serialize_shape in Hw as (th & tp & tm & tc & D1 & D2 & D3 & D4 & ->). rewrite Hp in D2. rewrite He in D1.
    exists (m_header (m_base r)), ty, rty, id. split; [|split; auto; split; [tauto|auto]].
    exists (sign (e_crypto E) (e_auth E) th tp tm tc), th, tp, tm, tc, (m_buffers (m_base r)). unfold wire. rewrite Hi.
    repeat split; auto; [apply verify_sign|eapply header_parses; eauto|].
    destruct (json_ok_dump (e_eh E) _ Hj) as (t' & H1 & H2). congruence.
  Qed.
  Lemma frames_same (ids1 ids2 : list string) r1 r2 : ~ In DELIMITER ids1 -> ~ In DELIMITER ids2 ->
    (ids1 ++ DELIMITER :: r1)%list = (ids2 ++ DELIMITER :: r2)%list -> ids1 = ids2 /\ r1 = r2.
  Proof.
    revert ids2. induction ids1 as [|x l IH]; intros [|y ids] H1 H2 H; cbn in H.
    - injection H as ->. auto.
    - injection H as H _. exfalso. apply H2. left. congruence.
    - injection H as H _. exfalso. apply H1. left. congruence.
    - injection H as -> H. destruct (IH ids (fun X => H1 (or_intror X)) (fun X => H2 (or_intror X)) H) as [-> ->]. auto.
  Qed.
  (** The parent header found by the client is that of the request. *)
  Lemma answer_about q w c e r f id : accepted E w q -> answers E (c, w) e -> e = ESend c r f -> about E id f -> has_id id (m_header (m_base q)).
  Proof.
    intros Ha (m & ty & r' & f' & id' & rty & Ha' & _ & -> & Hw & _ & Hi & Hp & _) [= -> ->] (ids & h & ph & (sg & th & tp & tm & tc & bufs & Hf & Hd & _ & _ & P) & Hid). cbn [fst snd] in *.
    assert (m = q) by (unfold accepted in *; congruence). subst m. destruct (accepted_header _ _ Ha) as [Hj Hd'].
    cbn [well_sent] in Hw. apply serialize_shape in Hw as (th' & tp' & tm' & tc' & _ & D2 & _ & _ & Hf'). unfold wire in Hf'. rewrite Hi in Hf'. rewrite Hf' in Hf.
    apply frames_same in Hf as [_ [= _ _ -> _ _ _]]; auto. rewrite Hp in D2.
    destruct (json_ok_dump (e_eh E) _ Hj) as (t' & H1 & H2). assert (ph = m_header (m_base q)) as <- by congruence. exact Hid.
  Qed.

  Lemma sub_nth {A} (a b : list A) : sub a b -> exists f, (forall i, i < List.length a -> nth_error a i = nth_error b (f i)) /\ forall i j, i < List.length a -> j < List.length a -> f i = f j -> i = j.
  Proof.
    induction 1 as [|a b x H (f & F1 & F2)|a b x H (f & F1 & F2)].
    - exists (fun i => i). auto.
    - exists (fun i => S (f i)). split; [intros i Hi; cbn; auto|]. intros i j Hi Hj [= X]. auto.
    - exists (fun i => match i with 0 => 0 | S i => S (f i) end). split.
      + intros [|i] Hi; cbn; auto. apply F1. cbn in Hi. lia.
      + intros [|i] [|j] Hi Hj X; cbn in *; try discriminate; auto. injection X as X. f_equal. apply F2; auto; lia.
  Qed.
  Lemma distinct_sub {A} (P : string -> A -> Prop) a b : sub a b -> distinct P b -> distinct P a.
  Proof.
    intros S D i j x y id Hi Hj Px Py. destruct (sub_nth _ _ S) as (f & F1 & F2).
    assert (Li : i < List.length a) by (apply nth_error_Some; congruence). assert (Lj : j < List.length a) by (apply nth_error_Some; congruence).
    apply F2; auto. apply (D (f i) (f j) x y id); auto; rewrite <- F1; auto.
  Qed.
  Lemma nth_forall2 {A B} (R : A -> B -> Prop) l l' i y : Forall2 R l l' -> nth_error l' i = Some y -> exists x, nth_error l i = Some x /\ R x y.
  Proof. intros H. revert i. induction H as [|a b l l' Hab H IH]; intros [|i] X; cbn in *; try discriminate; [injection X as <-; eauto|auto]. Qed.
  Lemma distinct_via {A B} (P : string -> A -> Prop) (Q : string -> B -> Prop) (R : A -> B -> Prop) l l' :
    Forall2 R l l' -> (forall x y id, In x l -> R x y -> Q id y -> P id x) -> distinct P l -> distinct Q l'.
  Proof.
    intros F H D i j x y id Hi Hj Qx Qy. destruct (nth_forall2 _ _ _ _ _ F Hi) as (a & Ha & Ra). destruct (nth_forall2 _ _ _ _ _ F Hj) as (b & Hb & Rb).
    eapply D; eauto; eapply H; eauto using nth_error_In.
  Qed.
  Lemma shell_answers xs es : Forall2 (answers E) xs (sends es) ->
    exists ws, List.map snd (filter (fun x => chan_eqb SHELL (fst x)) xs) = ws /\
      Forall2 (fun w f => exists r, answers E (SHELL, w) (ESend SHELL r f)) ws (shell_frames es).
  Proof.
    revert xs. induction es as [|e es IH]; intros xs F.
    - inversion F; subst. exists []. split; auto. constructor.
    - destruct e as [| c r f | | | | | | |]; cbn [sends filter shell_frames flat_map app] in *; try (now apply IH).
      inversion F as [|x ? ? ? A F']; subst. destruct (IH _ F') as (ws & W & G).
      pose proof A as (m & ty & r' & f' & id & rty & _ & _ & [= Ec Er Ef] & _). destruct x as [c' w]. cbn [fst snd] in *. subst c'.
      destruct c; cbn [filter fst chan_eqb List.map snd app]; [|exists ws; split; auto].
      exists (w :: ws). split; [now rewrite <- W|]. constructor; eauto.
  Qed.
  Lemma sub_map {A B} (f : A -> B) a b : sub a b -> sub (List.map f a) (List.map f b).
  Proof. induction 1; cbn; now constructor. Qed.
  Lemma sub_filter {A} (f : A -> bool) a b : sub a b -> sub (filter f a) (filter f b).
  Proof. induction 1 as [|a b x H IH|a b x H IH]; cbn; [constructor| |]; destruct (f x); auto; now constructor. Qed.
  Lemma shell_received ls : List.map snd (filter (fun x => chan_eqb SHELL (fst x)) (received ls)) = shell_taken ls.
  Proof.
    induction ls as [|l ls IH]; auto. unfold received, shell_taken in *. cbn [flat_map]. rewrite filter_app, map_app, IH. f_equal. destruct l as [| | | |[] w| | | |]; reflexivity.
  Qed.
  Lemma sub_prefix {A} (a b : list A) : sub a (a ++ b).
  Proof. induction a as [|x a IH]; cbn; [induction b; now constructor|now constructor]. Qed.
  Lemma sub_trans {A} (a b c : list A) : sub a b -> sub b c -> sub a c.
  Proof.
    intros H1 H2. revert a H1. induction H2 as [|b c x H IH|b c x H IH]; intros a H1; auto.
    - constructor. auto.
    - inversion H1; subst; [apply sub_skip; auto|apply sub_take; auto].
  Qed.
End Client.
