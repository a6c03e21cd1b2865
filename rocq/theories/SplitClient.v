(** The sockets of the split servers as a client and a subscriber see them: proofs. *)
From Coq Require Import Permutation.
From Verif Require Import Base BaseFacts Json JsonText Utf8 Utf8Proofs JsonTextProofs JsonParseProofs Auth Message MessageProofs WireSpec WireLemmas History HistoryProofs Comm Tree Kernel KernelSpec KernelLemmas
  Server ServerSpec ServerProofs ServerLemmas SequentialSpec Split SplitSpec SplitProofs SplitStreamSpec SplitStream SplitIds SplitAnsweredSpec SplitAnswered ClientSpec Client HeardSpec Heard SplitClientSpec.

(** ** Replies *)
Lemma distinct_perm {A} (P : string -> A -> Prop) l l' : Permutation l l' -> distinct P l -> distinct P l'.
Proof.
  intros H D i j x y id Hi Hj Px Py. apply Permutation_nth_error in H as (_ & f & Hf & N). apply Hf.
  apply (D (f i) (f j) x y id); auto; rewrite <- N; auto.
Qed.
Lemma sub_app {A} (a b c d : list A) : sub a b -> sub c d -> sub (a ++ c) (b ++ d).
Proof. intros H1 H2. induction H1; cbn; auto; now constructor. Qed.
Lemma sub_in {A} (a b : list A) x : sub a b -> In x a -> In x b.
Proof. induction 1; cbn; intuition. Qed.
(** The frames of the replies, in order. *)
Definition frames_of (evs : list event) : list frames := flat_map (fun e => match e with ESend _ _ f => [f] | _ => [] end) evs.
Lemma frames_sockets evs : Permutation (frames_of evs) (socket_frames SHELL evs ++ socket_frames CONTROL evs).
Proof.
  induction evs as [|e evs IH]; [constructor|]. unfold frames_of, socket_frames in *. cbn [flat_map].
  destruct e as [| [] r f | | | | | | |]; cbn [chan_eqb app]; auto.
  apply Permutation_cons_app. exact IH.
Qed.
Lemma occurred_threads ls : Permutation (occurred ls) (events SHELL ls ++ events CONTROL ls).
Proof.
  induction ls as [|l ls IH]; [constructor|]. unfold occurred, events in *. cbn [flat_map].
  destruct l as [| | | | [] e | | | | | |]; cbn [chan_eqb app]; auto.
  apply Permutation_cons_app. exact IH.
Qed.
Lemma frames_app a b : frames_of (a ++ b) = (frames_of a ++ frames_of b)%list.
Proof. apply flat_map_app. Qed.
Lemma frames_perm a b : Permutation a b -> Permutation (frames_of a) (frames_of b).
Proof. intros H. now apply Permutation_flat_map. Qed.
Lemma frames_sends evs : frames_of (sends evs) = frames_of evs.
Proof. unfold sends, frames_of. induction evs as [|e evs IH]; auto. destruct e; cbn; auto. now rewrite IH. Qed.
Lemma taken_received ls : Permutation (List.map (pair SHELL) (taken SHELL ls) ++ List.map (pair CONTROL) (taken CONTROL ls)) (received_by SHELL ls ++ received_by CONTROL ls).
Proof.
  induction ls as [|l ls IH]; [constructor|]. unfold taken, received_by in *. cbn [flat_map]. rewrite !map_app.
  destruct l as [| | |[] w| |[] w| | | | |]; cbn [chan_eqb List.map app]; auto.
  - etransitivity; [symmetry; apply Permutation_middle|]. apply Permutation_cons_app. exact IH.
  - apply Permutation_cons_app. exact IH.
Qed.

Section Once.
  Context {U : Type} (E : env U).
  Definition names (id : string) (w : frames) : Prop := exists q, accepted E w q /\ has_id id (m_header (m_base q)).
  Lemma sent_names qs ws : Forall2 (sent E) qs ws -> distinct has_id (List.map (fun q => m_header (m_base q)) qs) -> distinct names ws.
  Proof.
    intros F D. apply (distinct_via (fun id q => has_id id (m_header (m_base q))) names (sent E) qs); auto.
    - intros q w id _ Hsent (q' & Ha & Hid). apply sent_accepted in Hsent. assert (q' = q) by (unfold accepted in *; congruence). now subst.
    - intros i j x y id Hi Hj. apply (D i j (m_header (m_base x)) (m_header (m_base y)) id); [now rewrite nth_error_map, Hi|now rewrite nth_error_map, Hj].
  Qed.
  Lemma answers_frames xs es : Forall2 (answers E) xs es -> Forall2 (fun x f => exists r, answers E x (ESend (fst x) r f)) xs (frames_of es).
  Proof.
    induction 1 as [|x e xs es A F IH]; [constructor|]. pose proof A as (m & ty & r & f & id & rty & _ & _ & -> & _).
    cbn. constructor; eauto.
  Qed.
  Lemma answered_once xs es : Forall2 (answers E) xs es -> distinct names (List.map snd xs) -> distinct (about E) (frames_of es).
  Proof.
    intros F D. apply (distinct_via (fun id x => names id (snd x)) (about E) _ xs _ (answers_frames _ _ F)).
    - intros [c w] f id _ [r Ha] Hab. cbn [fst snd] in *. pose proof Ha as (m & ty & _ & _ & _ & _ & Hm & _). exists m. split; auto. eapply answer_about; eauto.
    - intros i j x y id Hi Hj. apply (D i j (snd x) (snd y) id); rewrite nth_error_map; [rewrite Hi|rewrite Hj]; reflexivity.
  Qed.
End Once.
Lemma socket_app c a b : socket_frames c (a ++ b) = (socket_frames c a ++ socket_frames c b)%list.
Proof. apply flat_map_app. Qed.
Lemma socket_answers {U} (E : env U) c ws es : Forall2 (answers E) (List.map (pair c) ws) es ->
  Forall2 (fun w f => exists r, answers E (c, w) (ESend c r f)) ws (socket_frames c es).
Proof.
  revert es. induction ws as [|w ws IH]; intros es F; inversion F as [|? e ? es' A F']; subst; [constructor|].
  pose proof A as (m & ty & r & f & id & rty & _ & _ & -> & _). cbn. rewrite chan_eqb_refl. constructor; eauto.
Qed.

(** ** Publications *)
Lemma said_pubs c ls : said_by c ls = pubs (events c ls).
Proof.
  unfold said_by, pubs, events. induction ls as [|l ls IH]; auto. cbn [flat_map]. rewrite flat_map_app, IH. f_equal.
  destruct l as [| | | | c' [] | | | | | |]; auto; destruct (chan_eqb c c'); reflexivity.
Qed.
Lemma said_interleaves ls : interleaves (said_by SHELL ls) (said_by CONTROL ls) (sent_out ls).
Proof.
  unfold said_by, sent_out. induction ls as [|l ls IH]; [constructor|]. cbn [flat_map].
  destruct l as [| | | | [] [] | | | | | |]; cbn [chan_eqb app]; auto; now constructor.
Qed.
Lemma interleaves_left {A} (a b l : list A) : interleaves a b l -> sub a l.
Proof. induction 1; now constructor. Qed.
Lemma interleaves_right {A} (a b l : list A) : interleaves a b l -> sub b l.
Proof. induction 1; now constructor. Qed.
Lemma sub_contained {A} (b l : list A) : contains b l -> sub b l.
Proof.
  intros (x & y & ->). induction x as [|z x IH]; cbn; [apply sub_prefix|now constructor].
Qed.
Lemma turns_of_app c a b : turns_of c (a ++ b) = (turns_of c a ++ turns_of c b)%list.
Proof. apply flat_map_app. Qed.
Lemma turns_of_same c ls : in_same c ls -> turns_of c ls = [].
Proof.
  induction 1 as [|l ls H F IH]; auto. unfold turns_of in *. cbn [flat_map]. rewrite IH, app_nil_r. destruct l as [| | |c' w| | | | |w| |]; auto; cbn in H.
  - destruct (chan_eqb c c') eqn:X; auto. apply chan_eqb_eq in X. now destruct H.
  - destruct (chan_eqb c SHELL) eqn:X; auto. apply chan_eqb_eq in X. now destruct H.
Qed.
Section Told.
  Context {U : Type} (E : env U) (He : e_eh E = EStrict).
  Lemma routed_none c ids h ty e : routed E c ids h ty e -> pubs [e] = [].
  Proof. intros (r & f & i & t & -> & _). reflexivity. Qed.
  Lemma aborted_none ws ab : aborted E ws ab -> pubs ab = [].
  Proof. induction 1; auto. Qed.
  Lemma segment_part c w l evs ok : segment E c w l evs ok -> ok = false ->
    evs = [] \/ exists m, accepted E w m /\ said E c (m_header (m_base m)) (pubs evs) false.
  Proof.
    intros S Hok. destruct S as [|Hrej|m busy mid A B W F|m ty busy mid rep ab ws tl A T B W F Wr R AB Htl Hn|m ty tl evs idle Sg Hne A T B W]; try discriminate; [auto| |].
    - right. exists m. split; auto. destruct (accepted_header E _ _ A) as [Hj _]. destruct (status_reads E He "busy" c _ _ Hj (or_introl eq_refl) B W) as (p & fb & -> & Hb).
      destruct (inner_said E He c m mid Hj F). now constructor.
    - right. exists m. split; auto. destruct (accepted_header E _ _ A) as [Hj _]. destruct (status_reads E He "busy" c _ _ Hj (or_introl eq_refl) B W) as (p & fb & -> & Hb).
      change (EPublish c p fb :: mid ++ rep :: ab)%list with ([EPublish c p fb] ++ (mid ++ ([rep] ++ ab)))%list.
      rewrite !pubs_app, (aborted_none _ _ AB), (routed_none _ _ _ _ _ R), app_nil_r. cbn [pubs flat_map app].
      destruct (inner_said E He c m mid Hj F). now constructor.
  Qed.
  Lemma segment_told c w l evs ok : segment E c w l evs ok -> told E c (THandle w) (pubs evs) ok.
  Proof.
    intros S. destruct ok.
    - remember true as ok eqn:Hok. destruct S as [|Hrej|m busy mid A B W F|m ty busy mid rep ab ws tl A T B W F Wr R AB Htl Hn|m ty tl evs idle Sg Hne A T B W]; try discriminate; [now apply told_rejected|].
      destruct (segment_part _ _ _ _ _ Sg eq_refl) as [X|(m' & A' & S)]; [contradiction|]. assert (m' = m) by (unfold accepted in *; congruence). subst m'.
      apply (told_block E c w m); auto. rewrite pubs_app. destruct (accepted_header E _ _ A) as [Hj _].
      destruct (status_reads E He "idle" c _ _ Hj (or_intror eq_refl) B W) as (p & fi & -> & Hi). now apply said_done.
    - destruct (segment_part _ _ _ _ _ S eq_refl) as [->|(m & A & S')]; [apply told_before|]. now apply (told_block E c w m).
  Qed.
  Lemma asides_told c w evs ok : Forall (aside E) evs -> told E c (TInternal w) (pubs evs) ok.
  Proof.
    intros F. constructor. induction F as [|e evs (Hw & Hns & _ & Hh) F IH]; [constructor|]. change (e :: evs) with ([e] ++ evs)%list. rewrite pubs_app.
    destruct e as [c' p w'| | | | | | | |]; auto. cbn [pubs flat_map app]. constructor; auto. destruct Hh as (id & ty & Hh). cbn [well_sent] in Hw.
    exists (m_header (m_pbase p)), id, ty. split; [eapply pub_heads; eauto|]. split; auto. intros ->. apply Hns. exists c', p, w'. split; auto.
    destruct Hh as (d & mm & _ & _ & _ & X & _). unfold pub_type, sfield. now rewrite X.
  Qed.
  Context (v : variant) (raw : string -> Prop) (HU : user_publishes E raw) (Hraw : ~ raw "status") (k : kstate U) (start : frames).
  Let listener (c : channel) w := dispatch E w c.
  Let internal := dispatch_internal E.
  Lemma told_complete c n : forall l1 x l3 s, List.length l1 <= n -> yrun v listener internal (y_init k start) (l1 ++ x :: l3) s -> starts c x ->
    exists bs, Forall2 (fun t b => told E c t b true) (turns_of c l1) bs /\ pubs (events c l1) = List.concat bs.
  Proof.
    induction n as [|n IH]; intros l1 x l3 s Hn R Hx.
    - destruct l1; [|cbn in Hn; lia]. exists []. split; constructor.
    - destruct (yrun_app _ _ _ _ _ _ R l1 (x :: l3) eq_refl) as (s1 & R1 & _).
      destruct (find_start c l1) as [Hs|(a & y & b & -> & Hy & Hb)].
      + exists []. rewrite (turns_of_same _ _ Hs). destruct (thread_before v E raw HU Hraw _ _ _ _ _ R1 Hs) as [_ ->]. split; constructor.
      + destruct (IH a y (b ++ x :: l3) s) as (bs & F & P); [rewrite app_length in Hn; cbn in Hn; lia|now rewrite <- app_assoc in R|exact Hy|].
        rewrite turns_of_app, events_app, pubs_app, P. change (y :: b) with ([y] ++ b)%list. rewrite turns_of_app, events_app, pubs_app, (turns_of_same c b Hb), app_nil_r.
        destruct y as [| | |c' w| | | | |w| |]; cbn in Hy; try contradiction.
        * subst c'. cbn [turns_of flat_map]. rewrite chan_eqb_refl. exists (bs ++ [pubs (events c b)])%list. split.
          -- apply Forall2_app; auto. constructor; [|constructor]. eapply segment_told. eapply (thread_ended v E raw HU Hraw k start); [exact R|now rewrite <- app_assoc|exact Hb|exact Hx].
          -- rewrite concat_app. cbn. now rewrite app_nil_r.
        * subst c. exists (bs ++ [pubs (events SHELL b)])%list. split.
          -- cbn. apply Forall2_app; auto. constructor; [|constructor]. apply asides_told. eapply (thread_internal v E raw HU Hraw); eauto.
          -- rewrite concat_app. cbn. now rewrite app_nil_r.
  Qed.
  Lemma thread_said_all c ls s : yrun v listener internal (y_init k start) ls s -> thread_told E c (turns_of c ls) (said_by c ls).
  Proof.
    intros R. rewrite said_pubs. destruct (find_start c ls) as [Hs|(a & y & b & -> & Hy & Hb)].
    - exists [], []. rewrite (turns_of_same _ _ Hs). destruct (thread_before v E raw HU Hraw _ _ _ _ _ R Hs) as [_ ->]. split; [constructor|left]. auto.
    - destruct (told_complete c _ a y b s (le_n _) R Hy) as (bs & F & P). exists (turns_of c a), bs. split; auto. right.
      rewrite turns_of_app, events_app, pubs_app, P. change (y :: b) with ([y] ++ b)%list. rewrite turns_of_app, events_app, pubs_app, (turns_of_same c b Hb), app_nil_r.
      destruct y as [| | |c' w| | | | |w| |]; cbn in Hy; try contradiction.
      + subst c'. destruct (thread_segment v E raw HU Hraw k start _ _ c w a b R eq_refl Hb) as [ok S]. cbn [turns_of flat_map]. rewrite chan_eqb_refl.
        exists (THandle w), (pubs (events c b)), ok. split; [reflexivity|]. split; [eapply segment_told; eauto|reflexivity].
      + subst c. exists (TInternal w), (pubs (events SHELL b)), true. split; [reflexivity|]. split; [|reflexivity]. apply asides_told. eapply (thread_internal v E raw HU Hraw); eauto.
  Qed.
  (** A message given to a thread that is not handling one any more. *)
  Lemma block_whole c ls s w q : yrun v listener internal (y_init k start) ls s -> rests c s -> In (YHand c w) ls -> accepted E w q ->
    exists b, said E c (m_header (m_base q)) b true /\ contains b (said_by c ls).
  Proof.
    intros R Hr Hin Ha. rewrite said_pubs.
    assert (K : exists bs, Forall2 (fun t b => told E c t b true) (turns_of c ls) bs /\ pubs (events c ls) = List.concat bs).
    { destruct (find_start c ls) as [Hs|(a & y & b & -> & Hy & Hb)].
      - exists []. rewrite (turns_of_same _ _ Hs). destruct (thread_before v E raw HU Hraw _ _ _ _ _ R Hs) as [_ ->]. split; constructor.
      - destruct (told_complete c _ a y b s (le_n _) R Hy) as (bs & F & P).
        rewrite turns_of_app, events_app, pubs_app, P. change (y :: b) with ([y] ++ b)%list. rewrite turns_of_app, events_app, pubs_app, (turns_of_same c b Hb), app_nil_r.
        destruct y as [| | |c' w'| | | | |w'| |]; cbn in Hy; try contradiction.
        + subst c'. cbn [turns_of flat_map]. rewrite chan_eqb_refl. exists (bs ++ [pubs (events c b)])%list. split.
          * apply Forall2_app; auto. constructor; [|constructor]. eapply segment_told. eapply (rests_segment v E raw HU Hraw k start); eauto.
          * rewrite concat_app. cbn. now rewrite app_nil_r.
        + subst c. exists (bs ++ [pubs (events SHELL b)])%list. split.
          * cbn. apply Forall2_app; auto. constructor; [|constructor]. apply asides_told. eapply (thread_internal v E raw HU Hraw); eauto.
          * rewrite concat_app. cbn. now rewrite app_nil_r. }
    destruct K as (bs & F & ->). assert (Ht : In (THandle w) (turns_of c ls)).
    { apply in_flat_map. exists (YHand c w). split; auto. rewrite chan_eqb_refl. now left. }
    destruct (forall2_in _ _ _ _ F Ht) as (b & Hb & T). exists b. split; [|now apply in_concat].
    inversion T as [|? [e Hrej]|? m ? ? A S|]; subst; unfold accepted in *; [congruence|]. assert (m = q) as <- by congruence. exact S.
  Qed.
End Told.
