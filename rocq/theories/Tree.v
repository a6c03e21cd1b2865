(** Programs as trees of atomic operations. A C++ function body becomes a tree: a leaf is a
    normal return, an exception or undefined behaviour; a node performs one operation on the
    shared state and continues with its answer. The same trees are run sequentially ([exec]) and
    interleaved (split servers). *)
From Verif Require Import Base.

Section Tree.
  Context {Op : Type} {Ar : Op -> Type}.
  Inductive tree (A : Type) : Type :=
  | Ret (a : A)
  | Throw (e : exn)
  | Stuck (why : string)
  | Do (o : Op) (k : Ar o -> tree A).
  Arguments Ret {A} a. Arguments Throw {A} e. Arguments Stuck {A} why. Arguments Do {A} o k.

  Fixpoint tbind {A B} (t : tree A) (f : A -> tree B) : tree B :=
    match t with
    | Ret a => f a
    | Throw e => Throw e
    | Stuck w => Stuck w
    | Do o k => Do o (fun x => tbind (k x) f)
    end.

  (** [try { t } catch (std::exception& e) { h }]. *)
  Fixpoint catch_std {A} (t : tree A) (h : tree A) : tree A :=
    match t with
    | Ret a => Ret a
    | Throw e => if is_std e then h else Throw e
    | Stuck w => Stuck w
    | Do o k => Do o (fun x => catch_std (k x) h)
    end.

  (** The outcome of [t] as a value: return or any exception. *)
  Fixpoint attempt {A} (t : tree A) : tree (A + exn) :=
    match t with
    | Ret a => Ret (inl a)
    | Throw e => Ret (inr e)
    | Stuck w => Stuck w
    | Do o k => Do o (fun x => attempt (k x))
    end.

  Definition of_res {A} (r : res A) : tree A :=
    match r with Ok a => Ret a | Exn e => Throw e | UB w => Stuck w end.

  (** One operation. *)
  Definition perform (o : Op) : tree (Ar o) := Do o (fun x => Ret x).

  Section Exec.
    Context {S : Type} (step : forall o : Op, S -> S * Ar o).
    (** Sequential execution. *)
    Fixpoint exec {A} (t : tree A) (s : S) : S * res A :=
      match t with
      | Ret a => (s, Ok a)
      | Throw e => (s, Exn e)
      | Stuck w => (s, UB w)
      | Do o k => let (s', x) := step o s in exec (k x) s'
      end.

    Lemma exec_bind {A B} (t : tree A) (f : A -> tree B) s :
      exec (tbind t f) s =
        match exec t s with
        | (s', Ok a) => exec (f a) s'
        | (s', Exn e) => (s', Exn e)
        | (s', UB w) => (s', UB w)
        end.
    Proof. revert s; induction t as [a|e|w|o k IH]; intros s; cbn; auto. destruct (step o s) as [s' x]; auto. Qed.
    Lemma exec_catch {A} (t h : tree A) s :
      exec (catch_std t h) s =
        match exec t s with
        | (s', Exn (Std _)) => exec h s'
        | r => r
        end.
    Proof.
      revert s; induction t as [a|e|w|o k IH]; intros s; cbn; auto.
      - destruct e; reflexivity.
      - destruct (step o s) as [s' x]; auto.
    Qed.
    Lemma exec_attempt {A} (t : tree A) s :
      exec (attempt t) s =
        match exec t s with
        | (s', Ok a) => (s', Ok (inl a))
        | (s', Exn e) => (s', Ok (inr e))
        | (s', UB w) => (s', UB w)
        end.
    Proof. revert s; induction t as [a|e|w|o k IH]; intros s; cbn; auto. destruct (step o s) as [s' x]; auto. Qed.
    Lemma exec_of_res {A} (r : res A) s : exec (of_res r) s = (s, r).
    Proof. destruct r; reflexivity. Qed.
    Lemma exec_perform (o : Op) s : exec (perform o) s = let (s', x) := step o s in (s', Ok x).
    Proof. cbn. now destruct (step o s). Qed.
  End Exec.

  (** Every operation occurring in the tree satisfies [P]. *)
  Fixpoint always {A} (P : Op -> Prop) (t : tree A) : Prop :=
    match t with
    | Do o k => P o /\ forall x, always P (k x)
    | _ => True
    end.
  Lemma always_bind {A B} (P : Op -> Prop) (t : tree A) (f : A -> tree B) :
    always P t -> (forall a, always P (f a)) -> always P (tbind t f).
  Proof. intros H Hf; induction t as [a|e|w|o k IH]; cbn in *; auto. destruct H as [Ho Hk]; split; auto. Qed.
  Lemma always_catch {A} (P : Op -> Prop) (t h : tree A) :
    always P t -> always P h -> always P (catch_std t h).
  Proof.
    intros H Hh; induction t as [a|e|w|o k IH]; cbn in *; auto.
    - destruct (is_std e); cbn; auto.
    - destruct H as [Ho Hk]; split; auto.
  Qed.
  Lemma always_attempt {A} (P : Op -> Prop) (t : tree A) : always P t -> always P (attempt t).
  Proof. intros H; induction t as [a|e|w|o k IH]; cbn in *; auto. destruct H as [Ho Hk]; split; auto. Qed.
  Lemma always_of_res {A} (P : Op -> Prop) (r : res A) : always P (of_res r).
  Proof. destruct r; cbn; auto. Qed.
  Lemma always_impl {A} (P Q : Op -> Prop) (t : tree A) :
    (forall o, P o -> Q o) -> always P t -> always Q t.
  Proof. intros HPQ; induction t as [a|e|w|o k IH]; cbn; auto. intros [Ho Hk]; split; auto. Qed.
End Tree.
Arguments tree {Op} Ar A.
Arguments Ret {Op Ar A} a. Arguments Throw {Op Ar A} e. Arguments Stuck {Op Ar A} why. Arguments Do {Op Ar A} o k.
Notation "x <-- p ;; q" := (tbind p (fun x => q)) (at level 61, p at next level, right associativity).
Notation "p ;;; q" := (tbind p (fun _ => q)) (at level 61, right associativity).
