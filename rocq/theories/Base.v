(** Base definitions shared by all model files: outcomes of C++ calls, byte strings,
    decimal printing, association maps. *)
From Coq Require Export List Arith ZArith NArith Lia Bool Ascii String.
From Coq Require Import DecimalString DecimalZ DecimalPos DecimalN Decimal.
From Coq Require Export ZifyBool ZifyNat ZifyN.
Export ListNotations.
#[global] Open Scope string_scope.
#[global] Open Scope list_scope.
#[global] Open Scope nat_scope.
Notation "a +++ b" := (String.append a b) (right associativity, at level 60).
Notation slen := String.length.

(** ** Outcomes *)

(** An exception: [Std what] derives from [std::exception] (caught by
    [catch (std::exception&)]), [Foreign] is any other thrown object. *)
Inductive exn : Type :=
| Std (what : string)
| Foreign (tag : string).

Definition is_std (e : exn) : bool := match e with Std _ => true | Foreign _ => false end.

(** Outcome of a C++ expression: a value, an exception, or undefined behaviour
    (reading outside a buffer, null dereference, popping an empty deque...). *)
Inductive res (A : Type) : Type :=
| Ok (a : A)
| Exn (e : exn)
| UB (why : string).
Arguments Ok {A} a. Arguments Exn {A} e. Arguments UB {A} why.

Definition bind {A B} (r : res A) (f : A -> res B) : res B :=
  match r with Ok a => f a | Exn e => Exn e | UB w => UB w end.
Notation "'let*' x ':=' r 'in' f" := (bind r (fun x => f))
  (at level 200, x pattern, r at level 100, f at level 200, right associativity).

Definition is_ok {A} (r : res A) : bool := match r with Ok _ => true | _ => false end.
Definition is_ub {A} (r : res A) : bool := match r with UB _ => true | _ => false end.
Definition is_exn {A} (r : res A) : bool := match r with Exn _ => true | _ => false end.
Definition throws_std {A} (r : res A) : bool := match r with Exn (Std _) => true | _ => false end.

Lemma bind_ok {A B} (r : res A) (f : A -> res B) b :
  bind r f = Ok b <-> exists a, r = Ok a /\ f a = Ok b.
Proof.
  destruct r as [a|e|w]; cbn; split; intros H; try discriminate; eauto.
  - destruct H as (a' & E & H); now injection E as ->.
  - destruct H as (a' & E & _); discriminate.
  - destruct H as (a' & E & _); discriminate.
Qed.

(** ** Byte strings *)

Lemma sapp_assoc (a b c : string) : (a +++ b) +++ c = a +++ (b +++ c).
Proof. induction a as [|x a IH]; cbn; [reflexivity | now rewrite IH]. Qed.
Lemma sapp_nil_r (a : string) : a +++ "" = a.
Proof. induction a as [|x a IH]; cbn; [reflexivity | now rewrite IH]. Qed.
Lemma slen_app (a b : string) : slen (a +++ b) = slen a + slen b.
Proof. induction a as [|x a IH]; cbn; [reflexivity | now rewrite IH]. Qed.
Lemma sapp_inj_len (a b c d : string) :
  slen a = slen c -> a +++ b = c +++ d -> a = c /\ b = d.
Proof.
  revert c; induction a as [|x a IH]; intros [|y c] Hl H; cbn in *; try discriminate; auto.
  injection H as -> H. destruct (IH c) as [-> ->]; auto.
Qed.
Lemma sapp_inv_head (a b c : string) : a +++ b = a +++ c -> b = c.
Proof. induction a as [|x a IH]; cbn; intros H; auto. injection H as H; auto. Qed.
Lemma sapp_inv_tail (a b c : string) : a +++ c = b +++ c -> a = b.
Proof.
  intros H. assert (slen a = slen b) as Hl.
  { apply (f_equal slen) in H. rewrite !slen_app in H. lia. }
  now apply sapp_inj_len in H.
Qed.

Definition los : string -> list ascii := list_ascii_of_string.
Definition sol : list ascii -> string := string_of_list_ascii.
Lemma los_sol l : los (sol l) = l.
Proof. apply list_ascii_of_string_of_list_ascii. Qed.
Lemma sol_los s : sol (los s) = s.
Proof. apply string_of_list_ascii_of_string. Qed.
Lemma los_app a b : los (a +++ b) = (los a ++ los b)%list.
Proof. induction a as [|x a IH]; cbn; [reflexivity | f_equal; apply IH]. Qed.
Lemma sol_app a b : sol (a ++ b)%list = sol a +++ sol b.
Proof. induction a as [|x a IH]; cbn; [reflexivity | f_equal; apply IH]. Qed.
Lemma los_len s : List.length (los s) = slen s.
Proof. induction s as [|x s IH]; cbn; [reflexivity | f_equal; apply IH]. Qed.
Lemma sol_len s : slen (sol s) = List.length s.
Proof. induction s as [|x s IH]; cbn; [reflexivity | f_equal; apply IH]. Qed.
Lemma los_inj a b : los a = los b -> a = b.
Proof. intros H; apply (f_equal sol) in H; now rewrite !sol_los in H. Qed.

(** [s] is a prefix of [t] (as a boolean). *)
Fixpoint sprefix (s t : string) : bool :=
  match s, t with
  | "", _ => true
  | String a s', String b t' => Ascii.eqb a b && sprefix s' t'
  | String _ _, "" => false
  end.
Lemma sprefix_spec s t : sprefix s t = true <-> exists r, t = s +++ r.
Proof.
  revert t; induction s as [|a s IH]; intros t; cbn.
  - split; eauto.
  - destruct t as [|b t].
    + split; [discriminate|]. intros [r H]; discriminate.
    + rewrite andb_true_iff, IH, Ascii.eqb_eq. split.
      * intros [-> [r ->]]; eauto.
      * intros [r H]; injection H as -> ->; eauto.
Qed.

(** Suffix of [s] from byte [n] on ([std::string::substr(n)], [n <= size]). *)
Fixpoint sdrop (n : nat) (s : string) : string :=
  match n, s with
  | 0, _ => s
  | S n', String _ s' => sdrop n' s'
  | S _, "" => ""
  end.
Fixpoint stake (n : nat) (s : string) : string :=
  match n, s with
  | 0, _ => ""
  | S n', String a s' => String a (stake n' s')
  | S _, "" => ""
  end.
Lemma stake_sdrop n s : stake n s +++ sdrop n s = s.
Proof. revert s; induction n as [|n IH]; intros [|a s]; cbn; auto. now rewrite IH. Qed.
Lemma sdrop_app n a b : slen a = n -> sdrop n (a +++ b) = b.
Proof. revert n; induction a as [|x a IH]; intros n <-; cbn; auto. Qed.
Lemma stake_app n a b : slen a = n -> stake n (a +++ b) = a.
Proof. revert n; induction a as [|x a IH]; intros n <-; cbn; auto. now rewrite IH. Qed.
Lemma sdrop_len n s : slen (sdrop n s) = slen s - n.
Proof. revert s; induction n as [|n IH]; intros [|a s]; cbn; auto. Qed.
Lemma stake_len n s : slen (stake n s) = Nat.min n (slen s).
Proof. revert s; induction n as [|n IH]; intros [|a s]; cbn; auto. Qed.

(** Concatenation of a list of strings. *)
Fixpoint sconcat (l : list string) : string :=
  match l with [] => "" | s :: l' => s +++ sconcat l' end.
Lemma sconcat_app a b : sconcat (a ++ b) = sconcat a +++ sconcat b.
Proof. induction a as [|x a IH]; cbn; [reflexivity | now rewrite IH, sapp_assoc]. Qed.

(** Numeric value of a byte. *)
Definition code (c : ascii) : N := N_of_ascii c.
Definition chr (n : N) : ascii := ascii_of_N n.
Lemma code_lt c : (code c < 256)%N.
Proof. unfold code; apply N_ascii_bounded. Qed.
Lemma chr_code c : chr (code c) = c.
Proof. apply ascii_N_embedding. Qed.
Lemma code_chr n : (n < 256)%N -> code (chr n) = n.
Proof. apply N_ascii_embedding. Qed.
Lemma code_inj a b : code a = code b -> a = b.
Proof. intros H; apply (f_equal chr) in H; now rewrite !chr_code in H. Qed.

(** A predicate checked on all 256 bytes holds for every byte. *)
Definition all_bytes : list ascii := List.map (fun n => ascii_of_nat n) (seq 0 256).
Lemma all_bytes_complete c : In c all_bytes.
Proof.
  unfold all_bytes. apply in_map_iff. exists (nat_of_ascii c). split.
  - apply ascii_nat_embedding.
  - apply in_seq. pose proof (nat_ascii_bounded c). lia.
Qed.
Lemma forall_bytes (P : ascii -> bool) : forallb P all_bytes = true -> forall c, P c = true.
Proof. intros H c. rewrite forallb_forall in H. apply H, all_bytes_complete. Qed.

(** ** Decimal text ([std::to_string], JSON integers) *)

Definition dec_of_Z (z : Z) : string := NilZero.string_of_int (Z.to_int z).
Definition dec_of_N (n : N) : string := NilZero.string_of_uint (N.to_uint n).
Definition dec_of_nat (n : nat) : string := dec_of_N (N.of_nat n).
Definition Z_of_dec (s : string) : option Z := option_map Z.of_int (NilZero.int_of_string s).

Definition is_digit (c : ascii) : bool := (48 <=? code c)%N && (code c <=? 57)%N.

(** ** Association maps, sorted by key ([std::map<std::string, V>]) *)

Definition str_ltb (a b : string) : bool :=
  match String.compare a b with Lt => true | _ => false end.

Section Smap.
  Context {V : Type}.
  Fixpoint mfind (k : string) (m : list (string * V)) : option V :=
    match m with
    | [] => None
    | (k', v) :: m' => if String.eqb k k' then Some v else mfind k m'
    end.
  (** Insert or overwrite, keeping the keys sorted. *)
  Fixpoint mset (k : string) (v : V) (m : list (string * V)) : list (string * V) :=
    match m with
    | [] => [(k, v)]
    | (k', v') :: m' =>
        match String.compare k k' with
        | Lt => (k, v) :: m
        | Eq => (k, v) :: m'
        | Gt => (k', v') :: mset k v m'
        end
    end.
  Fixpoint mdel (k : string) (m : list (string * V)) : list (string * V) :=
    match m with
    | [] => []
    | (k', v') :: m' => if String.eqb k k' then m' else (k', v') :: mdel k m'
    end.
  Definition mmem (k : string) (m : list (string * V)) : bool :=
    match mfind k m with Some _ => true | None => false end.
  Fixpoint msorted (m : list (string * V)) : bool :=
    match m with
    | [] => true
    | (k, _) :: m' =>
        match m' with [] => true | (k', _) :: _ => str_ltb k k' end && msorted m'
    end.
End Smap.
