(** What a client of the default server sees on the shell socket: C82. *)
From Verif Require Import Base BaseFacts Json JsonText Utf8 Utf8Proofs Auth Message MessageProofs WireSpec WireLemmas History HistoryProofs Comm Tree Kernel KernelSpec KernelProofs KernelRun KernelReplies KernelDemo
  Server ServerSpec ServerProofs ServerExec ServerLemmas ServerDemo SequentialSpec SequentialProofs AnsweredSpec Answered LiveSpec Live LiveDemo PropsSequential PropsAnswered ClientSpec Client.

(** C82. If the messages that arrive on the shell socket are the messages [qs] of clients that know the
    key, each of them well formed whatever came before it, then each is eventually answered: the
    multipart messages sent on the shell socket begin with one for each of [qs], in this order, and what
    the client reads in it is a valid signature, its own identities, the header it sent as parent header,
    and the header of a reply to a request of its type. *)
Theorem C82_answered : forall U (E : env U) raw k start sigma lab, e_split E = false -> quiet E -> env_utf8 E -> user_publishes E raw -> e_eh E = EStrict ->
  parents_utf8 k -> Forall entry_utf8 (k_history k) ->
  executes (acts (fun c w => dispatch E w c)) sigma lab -> sigma 0 = d_init k start ->
  just (acts (fun c w => dispatch E w c)) sigma lab AMain -> (forall n, exists m, n <= m /\ ~ waits_input (sigma m)) ->
  (forall n w, In w (arrived SHELL (observed lab n)) -> answerable E w) ->
  forall n qs, Forall2 (sent E) qs (arrived SHELL (observed lab n)) ->
  exists m, n <= m /\
    ((exists fs, prefix fs (shell_frames (happened (observed lab m))) /\ Forall2 (reply_for E) qs fs) \/
     d_pc (sigma m) = MCrash \/ In StopRequest (observed lab m) \/
     (int_max < k_count k + Z.of_nat (List.length (received (observed lab m))))%Z).
Proof.
  intros U E raw k start sigma lab Hs Hq Hu HU He Hp Hh Hex H0 HM HI HA n qs Hqs.
  destruct (C77_answered U E raw k start sigma lab Hs Hq Hu HU Hp Hh Hex H0 HM HI HA n) as (m & Hm & [(rs & [t Hpre] & F)|H]); exists m; (split; [exact Hm|]); [left|right; exact H].
  set (evs := happened (observed lab m)) in *. clearbody evs. clear - He Hqs Hpre F.
  assert (X : exists fs, shell_frames rs = fs /\ Forall2 (reply_for E) qs fs).
  { clear Hpre. revert rs F. generalize (arrived SHELL (observed lab n)), Hqs. clear - He. intros ws Hqs.
    induction Hqs as [|q w qs ws Hq H IH]; intros rs F; inversion F as [|? e ? rs' A F']; subst; cbn [List.map].
    - exists []. split; auto.
    - destruct (answer_reads E SHELL q w e He Hq A) as (r & f & -> & Hr). destruct (IH _ F') as (fs & Hfs & G).
      exists (f :: fs). split; [|now constructor]. now rewrite <- Hfs. }
  destruct X as (fs & <- & G). exists (shell_frames rs). split; auto. exists (shell_frames t).
  assert (Y : shell_frames (shell_sends evs) = shell_frames evs).
  { clear. unfold shell_sends, shell_frames. induction evs as [|e evs IH]; auto. destruct e as [| [] | | | | | | |]; cbn; auto. now rewrite IH. }
  rewrite <- Y, Hpre. apply flat_map_app.
Qed.
Print Assumptions C82_answered.

(** C82. If the messages that arrived on the shell socket have different identifiers, no two messages
    sent on the shell socket have the same identifier in their parent header: a client that looks there
    finds at most one reply to each of its requests. This holds at every moment of every run, whatever
    the requests are and whatever arrives on the other sockets. *)
Theorem C82_once : forall U (E : env U) raw k start ls s, e_split E = false -> quiet E -> env_utf8 E -> user_publishes E raw -> ~ raw "status" ->
  drun (fun c w => dispatch E w c) (d_init k start) ls s ->
  forall qs, Forall2 (sent E) qs (arrived SHELL ls) -> distinct has_id (List.map (fun q => m_header (m_base q)) qs) ->
  distinct (about E) (shell_frames (happened ls)).
Proof.
  intros U E raw k start ls s Hs Hq Hu HU Hr R qs F D.
  destruct (C69_replies U E raw Hs Hq Hu HU Hr k start ls s R) as (xs & S & A).
  destruct (shell_answers E _ _ A) as (ws & W & G).
  assert (Sw : sub ws (arrived SHELL ls)).
  { destruct (run_queues _ _ _ _ R eq_refl eq_refl) as [_ Q]. rewrite Q. eapply sub_trans; [|apply sub_prefix].
    rewrite <- W, <- shell_received. now apply sub_map, sub_filter. }
  set (P := fun id w => exists q, accepted E w q /\ has_id id (m_header (m_base q))).
  apply (distinct_via P (about E) (fun w f => exists r, answers E (SHELL, w) (ESend SHELL r f)) ws (shell_frames (happened ls))); auto.
  - intros w f id Hw [r Ha] Hab. pose proof Ha as (m & ty & _ & _ & _ & _ & Hm & _). exists m. split; auto. eapply answer_about; eauto.
  - eapply distinct_sub; [exact Sw|].
    apply (distinct_via (fun id q => has_id id (m_header (m_base q))) P (sent E) qs); auto.
    + intros q w id _ Hsent (q' & Ha & Hid). apply sent_accepted in Hsent. assert (q' = q) by (unfold accepted in *; congruence). now subst.
    + intros i j x y id Hi Hj. apply (D i j (m_header (m_base x)) (m_header (m_base y)) id); [now rewrite nth_error_map, Hi|now rewrite nth_error_map, Hj].
Qed.
Print Assumptions C82_once.
(** Two clients: one runs cells, the other asks for the last entry of the history. *)
Definition from (peer id : string) (m : xmessage) : xmessage :=
  {| m_ids := [peer]; m_base := {| m_header := jobj [("msg_id", JStr id); ("msg_type", JStr (match msg_type m with Some t => t | None => "" end))];
       m_parent_header := empty; m_metadata := empty; m_content := m_content (m_base m); m_buffers := [] |} |}.
Definition clients : list xmessage := [from "ann" "a-1" (execute "1" []); from "bob" "b-1" tail_request; from "ann" "a-2" (execute "2" [])].
Definition client_choices : list (choice * nat) :=
  match List.map wire_of clients with
  | [q1; q2; q3] => [(GArrive SHELL q1, 1); (GMain, 40); (GArrive SHELL q2, 1); (GArrive SHELL q3, 1); (GArrive CONTROL info, 1); (GMain, 600); (GPub, 300); (GHb, 50)]
  | _ => []
  end.
Lemma clients_sent : Forall2 (sent demo) clients (List.map wire_of clients).
Proof.
  unfold clients. cbn [List.map]. apply Forall2_cons; [|apply Forall2_cons; [|apply Forall2_cons; [|apply Forall2_nil]]]; (apply (serialized_sent demo _ _ EStrict); [vm_compute; reflexivity|cbn; intros [H|[]]; discriminate|vm_compute; reflexivity]).
Qed.
Lemma clients_answerable w : In w (List.map wire_of clients) -> answerable demo w.
Proof.
  assert (HC : forall p id code, accepted demo (wire_of (from p id (execute code []))) (from p id (execute code [])) ->
    String.eqb code "boom" = false -> String.eqb code "bad" = false -> String.eqb code "ask" = false -> utf8_text code -> answerable demo (wire_of (from p id (execute code [])))).
  { intros p id code Ha H1 H2 H3 H4. exists (from p id (execute code [])), "execute_request". split; [exact Ha|]. split; [eexists; split; reflexivity|].
    intros s (_ & _ & Hm). eexists.
    apply (wf_execute demo s _ _ {| x_code := code; x_silent := false; x_store := true; x_count := 1; x_ue := JObj []; x_stdin := true; x_stop := false |}).
    - eexists. split; [reflexivity|]. cbn. split; [now right|]. repeat split; now left.
    - right. lia.
    - now apply demo_prints. }
  intros [<-|[<-|[<-|[]]]]; [apply HC; [vm_compute; reflexivity|reflexivity|reflexivity|reflexivity|apply utf8_lit; reflexivity]| |apply HC; [vm_compute; reflexivity|reflexivity|reflexivity|reflexivity|apply utf8_lit; reflexivity]].
  exists (from "bob" "b-1" tail_request), "history_request". split; [vm_compute; reflexivity|]. split; [eexists; split; reflexivity|]. intros s (_ & Hh & _). eexists.
  eapply wf_history.
  - apply (request_tail _ _ 1 true false); [now right| right; split; [reflexivity|unfold int_min, int_max; lia] | now left | now left | lia].
  - apply utf8_obj. repeat constructor; cbn [fst snd]; try apply utf8_str; try (apply utf8_lit; reflexivity).
    apply utf8_arr. rewrite map_map. apply Forall_map, Forall_forall. intros e He. rewrite Forall_forall in Hh. destruct (Hh e) as (A & B & C & _).
    { unfold lastn in He. rewrite <- (firstn_skipn (List.length (k_history s) - Z.to_nat 1) (k_history s)). apply in_or_app. auto. }
    apply utf8_arr. repeat constructor; now apply utf8_str.
Qed.
(** The identities, the parent header and the reply type in the frames of a reply. *)
Definition client_view (f : frames) : option (string * json * option string) :=
  match f with
  | [id; d; sg; th; tp; tm; tc] =>
      if String.eqb d DELIMITER then match parse th, parse tp with Ok h, Ok ph => Some (id, ph, sfield "msg_type" h) | _, _ => None end else None
  | _ => None
  end.
Lemma distinct_by {A} (P : string -> A -> Prop) ids l : NoDup ids -> (forall id id' x, P id x -> P id' x -> id = id') -> Forall2 P ids l -> distinct P l.
Proof.
  intros N D F i j x y id Hi Hj Px Py. destruct (nth_forall2 _ _ _ _ _ F Hi) as (a & Ha & Pa). destruct (nth_forall2 _ _ _ _ _ F Hj) as (b & Hb & Pb).
  rewrite (D _ _ _ Pa Px) in Ha. rewrite (D _ _ _ Pb Py) in Hb. apply (proj1 (NoDup_nth_error ids) N); [apply nth_error_Some|]; congruence.
Qed.
Example C82_ex : live_hyps (default_path client_choices) (default_lab client_choices) /\ e_eh demo = EStrict /\
  parents_utf8 demo_start /\ Forall entry_utf8 (k_history demo_start) /\
  (forall n w, In w (arrived SHELL (observed (default_lab client_choices) n)) -> answerable demo w) /\
  Forall2 (sent demo) clients (arrived SHELL (observed (default_lab client_choices) 43)) /\
  distinct has_id (List.map (fun q => m_header (m_base q)) clients) /\
  List.map client_view (shell_frames (happened (observed (default_lab client_choices) 900))) =
    [Some ("ann", jobj [("msg_id", JStr "a-1"); ("msg_type", JStr "execute_request")], Some "execute_reply");
     Some ("bob", jobj [("msg_id", JStr "b-1"); ("msg_type", JStr "history_request")], Some "history_reply");
     Some ("ann", jobj [("msg_id", JStr "a-2"); ("msg_type", JStr "execute_request")], Some "execute_reply")].
Proof.
  split; [apply default_live; vm_compute; reflexivity|]. split; [reflexivity|].
  assert (Hp : k_phdr demo_start = fun _ => empty) by (vm_compute; reflexivity).
  assert (Hh : k_history demo_start = []) by (vm_compute; reflexivity).
  split; [intros c; rewrite Hp; exact utf8_empty|]. split; [rewrite Hh; constructor|].
  assert (HA : arrived SHELL (dlabels default_listener (firstn (List.length (expand client_choices)) (expand client_choices)) (d_init demo_start ["start"])) =
    List.map wire_of clients) by (vm_compute; reflexivity).
  unfold default_lab. split.
  { intros n w Hw. apply clients_answerable. rewrite <- HA, <- dlab_labels. destruct (le_lt_dec n (List.length (expand client_choices))) as [Hn|Hn].
    - destruct (obs_prefix (dlab default_listener (expand client_choices) (d_init demo_start ["start"])) n _ Hn) as [x Hx].
      rewrite Hx. unfold arrived. rewrite flat_map_app. apply in_or_app. auto.
    - rewrite dlab_end in Hw by lia. exact Hw. }
  rewrite !dlab_labels. split.
  { assert (X : arrived SHELL (dlabels default_listener (firstn 43 (expand client_choices)) (d_init demo_start ["start"])) = List.map wire_of clients) by (vm_compute; reflexivity).
    rewrite X. exact clients_sent. }
  split; [|vm_compute; reflexivity].
  apply (distinct_by (fun id h => jfield "msg_id" h = Some (JStr id)) ["a-1"; "b-1"; "a-2"]).
  - repeat constructor; cbn; intuition discriminate.
  - intros id id' x H1 H2. congruence.
  - repeat constructor.
Qed.
