(** The indented text of a value is read back as this value, whatever follows. *)
From Verif Require Import Base BaseFacts Json Utf8 JsonText JsonTextProofs JsonParseProofs Pretty.

Fixpoint pretty_elems (i : nat) (l : list json) : option string :=
  match l with
  | [] => Some ""
  | x :: l' =>
      match pretty_opt (i + 4) x, pretty_elems i l' with
      | Some a, Some b => Some (spaces (i + 4) +++ a +++ match l' with [] => "" | _ => "," +++ newline +++ b end)
      | _, _ => None
      end
  end.
Fixpoint pretty_members (i : nat) (m : list (string * json)) : option string :=
  match m with
  | [] => Some ""
  | (k, x) :: m' =>
      match dump_str EStrict k, pretty_opt (i + 4) x, pretty_members i m' with
      | Some kk, Some a, Some b => Some (spaces (i + 4) +++ kk +++ ": " +++ a +++ match m' with [] => "" | _ => "," +++ newline +++ b end)
      | _, _, _ => None
      end
  end.
Lemma pretty_arr i x l : pretty_opt i (JArr (x :: l)) = option_map (fun t => "[" +++ newline +++ t +++ newline +++ spaces i +++ "]") (pretty_elems i (x :: l)).
Proof.
  cbn [pretty_opt pretty_elems]. do 2 f_equal. destruct (pretty_opt (i + 4) x); auto.
  assert (forall l, (fix go (l : list json) : option string :=
            match l with
            | [] => Some ""
            | x :: l' =>
                match pretty_opt (i + 4) x, go l' with
                | Some a, Some b => Some (spaces (i + 4) +++ a +++ match l' with [] => "" | _ => "," +++ newline +++ b end)
                | _, _ => None
                end
            end) l = pretty_elems i l) as X by (clear; induction l as [|y l IH]; [|cbn [pretty_elems]; rewrite <- IH]; reflexivity).
  now rewrite X.
Qed.
Lemma pretty_obj i p m : pretty_opt i (JObj (p :: m)) = option_map (fun t => "{" +++ newline +++ t +++ newline +++ spaces i +++ "}") (pretty_members i (p :: m)).
Proof.
  destruct p as [k x]. cbn [pretty_opt pretty_members]. do 2 f_equal. destruct (dump_str EStrict k), (pretty_opt (i + 4) x); auto.
  assert (forall m, (fix go (m : list (string * json)) : option string :=
            match m with
            | [] => Some ""
            | (k, x) :: m' =>
                match dump_str EStrict k, pretty_opt (i + 4) x, go m' with
                | Some kk, Some a, Some b => Some (spaces (i + 4) +++ kk +++ ": " +++ a +++ match m' with [] => "" | _ => "," +++ newline +++ b end)
                | _, _, _ => None
                end
            end) m = pretty_members i m) as X by (clear; induction m as [|[k y] m IH]; [|cbn [pretty_members]; rewrite <- IH]; reflexivity).
  now rewrite X.
Qed.

Lemma skip_spaces n s : skip_ws (spaces n +++ s) = skip_ws s.
Proof. induction n; auto. Qed.
Lemma skip_newline s : skip_ws (newline +++ s) = skip_ws s.
Proof. reflexivity. Qed.
Lemma pval_ws n s s' : skip_ws s = skip_ws s' -> pval n s = pval n s'.
Proof. intros H. rewrite <- (pval_skip n s), <- (pval_skip n s'). now rewrite H. Qed.
Lemma skip_idem s : skip_ws (skip_ws s) = skip_ws s.
Proof.
  induction s as [|c s IH]; auto. cbn [skip_ws]. destruct (is_ws c) eqn:E; auto. cbn [skip_ws]. now rewrite E.
Qed.

(** It can be made exactly if the compact text can be made. *)
Lemma pretty_dump j : forall i, pretty_opt i j = None <-> dump_opt EStrict j = None.
Proof.
  induction j using json_ind'; intros i; try reflexivity.
  - destruct l as [|x l]; [cbn; split; discriminate|]. rewrite pretty_arr, dump_arr.
    assert (pretty_elems i (x :: l) = None <-> dump_elems EStrict (x :: l) = None) as X.
    { revert H. generalize (x :: l). clear. induction 1 as [|y l Hy _ IH]; [cbn; tauto|]. cbn [pretty_elems dump_elems].
      specialize (Hy (i + 4)).
      destruct (pretty_opt (i + 4) y), (dump_opt EStrict y), (pretty_elems i l), (dump_elems EStrict l);
        try tauto; split; intros; try discriminate; auto; exfalso; repeat match goal with H : _ <-> _ |- _ => destruct H end;
        match goal with H : None = None -> _ = None |- _ => discriminate (H eq_refl) end. }
    destruct (pretty_elems i (x :: l)), (dump_elems EStrict (x :: l)); cbn; split; intros; try discriminate; auto;
      destruct X as [X Y]; (discriminate (X eq_refl) || discriminate (Y eq_refl)).
  - destruct m as [|[k x] m]; [cbn; split; discriminate|]. rewrite pretty_obj, dump_obj.
    assert (pretty_members i ((k, x) :: m) = None <-> dump_members EStrict ((k, x) :: m) = None) as X.
    { revert H. generalize ((k, x) :: m). clear. induction 1 as [|[k y] l Hy _ IH]; [cbn; tauto|]. cbn [pretty_members dump_members snd] in *.
      specialize (Hy (i + 4)).
      destruct (dump_str EStrict k); [|tauto].
      destruct (pretty_opt (i + 4) y), (dump_opt EStrict y), (pretty_members i l), (dump_members EStrict l);
        try tauto; split; intros; try discriminate; auto; exfalso; repeat match goal with H : _ <-> _ |- _ => destruct H end;
        match goal with H : None = None -> _ = None |- _ => discriminate (H eq_refl) end. }
    destruct (pretty_members i ((k, x) :: m)), (dump_members EStrict ((k, x) :: m)); cbn [option_map]; split; intros; try discriminate; auto;
      destruct X as [X Y]; (discriminate (X eq_refl) || discriminate (Y eq_refl)).
Qed.

Lemma pretty_lead i j t : pretty_opt i j = Some t -> lead_ok t = true.
Proof.
  destruct j as [|b|z|l|s|[|x l]|[|p m]]; intros H; try (eapply dump_lead; exact H); try (cbn in H; injection H as <-; reflexivity).
  - rewrite pretty_arr in H. destruct (pretty_elems i (x :: l)); [|discriminate]. injection H as <-. reflexivity.
  - rewrite pretty_obj in H. destruct (pretty_members i (p :: m)); [|discriminate]. injection H as <-. reflexivity.
Qed.

Definition prt (j : json) : Prop := forall i t r, jgood j = true -> pretty_opt i j = Some t -> numstop r = true ->
  exists N, forall n, N <= n -> pval n (t +++ r) = Some (j, r).

Lemma newline_stop s : numstop (newline +++ s) = true.
Proof. reflexivity. Qed.
Lemma some_inj {A} (x y : A) : Some x = Some y -> x = y.
Proof. congruence. Qed.
Lemma prt_elems i l : Forall prt l -> forall t r, l <> [] -> forallb jgood l = true -> pretty_elems i l = Some t ->
  exists N, forall n, N <= n -> pelems n (t +++ newline +++ spaces i +++ "]" +++ r) = Some (l, r).
Proof.
  induction 1 as [|x l Hx Hl IH]; intros t r Hne Hg Hd; [congruence|].
  cbn [pretty_elems forallb] in *. apply andb_true_iff in Hg as [Hg Hgl].
  destruct (pretty_opt (i + 4) x) as [a|] eqn:Ea; [|discriminate].
  destruct (pretty_elems i l) as [b|] eqn:Eb; [|discriminate]. apply some_inj in Hd; subst t.
  destruct l as [|y l].
  - rewrite !sapp_assoc; change ("" +++ ?x) with x. destruct (Hx (i + 4) a (newline +++ spaces i +++ "]" +++ r) Hg Ea eq_refl) as [N HN].
    exists (S N). intros n Hn. destruct n as [|n]; [lia|]. cbn [pelems].
    rewrite (pval_ws n _ (a +++ newline +++ spaces i +++ "]" +++ r)) by (now rewrite skip_spaces).
    rewrite HN by lia. rewrite skip_newline, skip_spaces. reflexivity.
  - rewrite !sapp_assoc. destruct (Hx (i + 4) a ("," +++ newline +++ b +++ newline +++ spaces i +++ "]" +++ r) Hg Ea eq_refl) as [N HN].
    destruct (IH b r ltac:(discriminate) Hgl eq_refl) as [N2 HN2].
    exists (S (N + S N2)). intros n Hn. destruct n as [|n]; [lia|]. cbn [pelems].
    rewrite (pval_ws n _ (a +++ "," +++ newline +++ b +++ newline +++ spaces i +++ "]" +++ r)) by (now rewrite skip_spaces).
    rewrite HN by lia. change (skip_ws ("," +++ ?x)) with (String "," x). cbv beta iota.
    destruct n as [|n]; [lia|].
    assert (pelems (S n) (newline +++ b +++ newline +++ spaces i +++ "]" +++ r) = pelems (S n) (b +++ newline +++ spaces i +++ "]" +++ r)) as ->.
    { cbn [pelems]. now rewrite (pval_ws n (newline +++ b +++ newline +++ spaces i +++ "]" +++ r) (b +++ newline +++ spaces i +++ "]" +++ r)) by apply skip_newline. }
    now rewrite HN2 by lia.
Qed.
Lemma pmembers_ws n acc s s' : skip_ws s = skip_ws s' -> pmembers n acc s = pmembers n acc s'.
Proof. intros H. destruct n as [|n]; auto. cbn [pmembers]. now rewrite H. Qed.

Lemma prt_members i m : Forall (fun p => prt (snd p)) m -> forall acc t r, m <> [] ->
  msorted (acc ++ m) = true -> forallb (fun p => jgood (snd p)) m = true -> pretty_members i m = Some t ->
  exists N, forall n, N <= n -> pmembers n acc (t +++ newline +++ spaces i +++ "}" +++ r) = Some ((acc ++ m)%list, r).
Proof.
  induction 1 as [|[k x] m Hx Hm IH]; intros acc t r Hne Hs Hg Hd; [congruence|].
  cbn [pretty_members forallb fst snd] in *. apply andb_true_iff in Hg as [Hg Hgl].
  destruct (dump_str EStrict k) as [kk|] eqn:Ek; [|discriminate].
  destruct (pretty_opt (i + 4) x) as [a|] eqn:Ea; [|discriminate].
  destruct (pretty_members i m) as [b|] eqn:Eb; [|discriminate]. apply some_inj in Hd; subst t.
  apply dump_str_scan in Ek as (k' & -> & Hk).
  assert (mset k x acc = (acc ++ [(k, x)])%list) as Hms.
  { apply mset_append. apply Forall_forall. intros p Hp. apply msorted_app in Hs as (_ & _ & Hs).
    apply (Hs p (k, x)); auto. now left. }
  assert (forall n u, pmembers (S n) acc (spaces (i + 4) +++ String chr_quote k' +++ ": " +++ a +++ u) =
    match pval n (" " +++ a +++ u) with
    | None => None
    | Some (v, r3) => match skip_ws r3 with
                      | String "," r4 => pmembers n (mset k v acc) r4
                      | String "}" r4 => Some (mset k v acc, r4)
                      | _ => None
                      end
    end) as Hstep.
  { intros n u. rewrite (pmembers_ws _ _ _ (String chr_quote k' +++ ": " +++ a +++ u)) by apply skip_spaces.
    cbn [pmembers append]. change (skip_ws (String chr_quote ?x)) with (String chr_quote x). cbv beta iota.
    change (Ascii.eqb chr_quote chr_quote) with true. cbv beta iota.
    change (k' +++ String ":" (String " " (a +++ u))) with (k' +++ (": " +++ a +++ u)). rewrite Hk. reflexivity. }
  destruct m as [|y m].
  - rewrite !sapp_assoc; change ("" +++ ?x) with x. destruct (Hx (i + 4) a (newline +++ spaces i +++ "}" +++ r) Hg Ea eq_refl) as [N HN].
    exists (S N). intros n Hn. destruct n as [|n]; [lia|]. rewrite Hstep.
    rewrite (pval_ws n _ (a +++ newline +++ spaces i +++ "}" +++ r)) by reflexivity.
    rewrite HN by lia. rewrite skip_newline, skip_spaces. cbn. now rewrite Hms.
  - rewrite !sapp_assoc. destruct (Hx (i + 4) a ("," +++ newline +++ b +++ newline +++ spaces i +++ "}" +++ r) Hg Ea eq_refl) as [N HN].
    destruct (IH (acc ++ [(k, x)])%list b r ltac:(discriminate)) as [N2 HN2]; auto.
    { rewrite <- app_assoc. exact Hs. }
    exists (S (N + N2)). intros n Hn. destruct n as [|n]; [lia|]. rewrite Hstep.
    rewrite (pval_ws n _ (a +++ "," +++ newline +++ b +++ newline +++ spaces i +++ "}" +++ r)) by reflexivity.
    rewrite HN by lia. change (skip_ws ("," +++ ?x)) with (String "," x). cbv beta iota.
    rewrite (pmembers_ws _ _ _ (b +++ newline +++ spaces i +++ "}" +++ r)) by apply skip_newline.
    rewrite Hms, HN2 by lia. now rewrite <- app_assoc.
Qed.
Lemma pretty_pval j : prt j.
Proof.
  induction j using json_ind'; intros i t r Hg Hd Hr; try (eapply round_trip_pval; eassumption).
  - apply jgood_arr in Hg. destruct l as [|x l].
    + cbn in Hd. apply some_inj in Hd; subst t. exists 1. intros [|n] Hn; [lia|]. reflexivity.
    + rewrite pretty_arr in Hd. destruct (pretty_elems i (x :: l)) as [e|] eqn:E; [|discriminate]. cbn [option_map] in Hd. apply some_inj in Hd; subst t.
      destruct (prt_elems i _ H e r ltac:(discriminate) Hg E) as [N HN].
      exists (S (S N)). intros [|[|n]] Hn; [lia|lia|]. rewrite !sapp_assoc. cbn [append]. rewrite rt_dispatch_arr.
      assert (exists a u, pretty_opt (i + 4) x = Some a /\ e = spaces (i + 4) +++ a +++ u) as (a & u & Ea & ->).
      { cbn [pretty_elems] in E. destruct (pretty_opt (i + 4) x) as [a|] eqn:Ea; [|discriminate].
        destruct (pretty_elems i l); [|discriminate]. apply some_inj in E; subst e. eauto. }
      apply pretty_lead in Ea. rewrite !sapp_assoc, skip_newline, skip_spaces, lead_skip by auto. rewrite match_rbrack by auto.
      assert (forall s, pelems (S n) (newline +++ s) = pelems (S n) s) as -> by (intros s; cbn [pelems]; now rewrite (pval_ws n (newline +++ s) s) by apply skip_newline).
      rewrite <- !sapp_assoc, (sapp_assoc (spaces (i + 4))), sapp_assoc, (sapp_assoc _ newline). 
      specialize (HN (S n) ltac:(lia)). rewrite !sapp_assoc in *. cbn [append] in *. rewrite HN. reflexivity.
  - apply jgood_obj in Hg as [Hs Hg]. destruct m as [|[k x] m].
    + cbn in Hd. apply some_inj in Hd; subst t. exists 1. intros [|n] Hn; [lia|]. reflexivity.
    + rewrite pretty_obj in Hd. destruct (pretty_members i ((k, x) :: m)) as [e|] eqn:E; [|discriminate]. cbn [option_map] in Hd. apply some_inj in Hd; subst t.
      destruct (prt_members i _ H [] e r ltac:(discriminate) Hs Hg E) as [N HN].
      exists (S N). intros [|n] Hn; [lia|]. rewrite !sapp_assoc. cbn [append]. rewrite rt_dispatch_obj.
      assert (exists u, e = spaces (i + 4) +++ String chr_quote u) as (u & ->).
      { cbn [pretty_members] in E. destruct (dump_str EStrict k) as [kk|] eqn:Ek; [|discriminate]. destruct (pretty_opt (i + 4) x) as [a|]; [|discriminate].
        destruct (pretty_members i m); [|discriminate]. apply dump_str_scan in Ek as (k' & -> & _). apply some_inj in E; subst e. eexists. reflexivity. }
      rewrite !sapp_assoc, skip_newline, skip_spaces. cbn [append]. change (skip_ws (String chr_quote ?x)) with (String chr_quote x).
      unfold chr_quote at 1. cbv beta iota.
      rewrite (pmembers_ws n [] _ ((spaces (i + 4) +++ String chr_quote u) +++ newline +++ spaces i +++ "}" +++ r)).
      * rewrite HN by lia. reflexivity.
      * rewrite skip_newline, !sapp_assoc. reflexivity.
Qed.
