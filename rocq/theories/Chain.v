(** A chain of loggers used by several threads. Each logger has its own mutex ([m_mutex],
    src/xlogger_impl.hpp:100 and 124), taken for its own text only (src/xlogger_impl.cpp:196-201, 215-224);
    [xlogger_common::log_message_impl] (lines 155-189) makes the message, has it written, and then calls
    the next logger, without a lock. Several loggers may write to one sink: to the console or to files of
    the same name. *)
From Verif Require Import Base Json JsonText Auth Message Logger Pretty Monitor.

(** The loggers of a chain in order; [xlogger_nolog] ends it. *)
Fixpoint links (lg : logger) : list (level * sink) :=
  match lg with LNolog => [] | LLogger l s next => (l, s) :: links next end.
Definition sink_eqb (a b : sink) : bool :=
  match a, b with SConsole, SConsole => true | SFile x, SFile y => String.eqb x y | _, _ => false end.
(** One call of [log_message]; [po_cuts]: the pieces in which the n-th logger's text gets to its sink. *)
Record post := { po_info : string; po_header : json; po_parent : json; po_meta : json; po_content : json;
                 po_cuts : nat -> list nat * list nat }.
Definition post_message (l : level) (m : post) : res json := at_level l (po_header m) (po_parent m) (po_meta m) (po_content m).
Definition post_call (m : post) (k : nat) (j : json) : lcall :=
  {| l_info := po_info m; l_message := j; l_cuts := fst (po_cuts m k); l_cuts2 := snd (po_cuts m k) |}.
Definition link_body (early : bool) (x : sink) (c : lcall) : code string unit :=
  match x with SConsole => console_body early c | SFile _ => file_body c end.

Inductive qplace :=
| QOut                                                  (* not in a logger *)
| QAt (m : post) (k : nat)                              (* at the beginning of the k-th logger's lines 155-189 *)
| QWait (m : post) (k : nat) (c : lcall)                (* in the constructor of its lock_guard *)
| QIn (m : post) (k : nat) (c : lcall) (p : code string unit)
| QFail (m : post) (e : exn).                           (* an exception leaves the loggers that called this one *)
Record qsys := { q_sinks : sink -> string; q_locks : nat -> option nat; q_at : nat -> qplace }.
Inductive qlabel :=
| QCall (i : nat) (m : post)
| QTau (i : nat)
| QDone (i k : nat) (c : lcall) (r : unit + exn)        (* the k-th logger unlocks its mutex *)
| QBack (i : nat) (m : post) (r : unit + exn).          (* the call of the chain is over *)
Definition qmove (i : nat) (x : qplace) (f : nat -> qplace) : nat -> qplace := fun j => if Nat.eqb j i then x else f j.
Definition qlock (k : nat) (o : option nat) (f : nat -> option nat) : nat -> option nat := fun j => if Nat.eqb j k then o else f j.
Definition qsink (x : sink) (t : string) (f : sink -> string) : sink -> string := fun y => if sink_eqb y x then t else f y.

Section Chain.
  Variable (early : bool) (chain : list (level * sink)).
  Inductive qstep : qsys -> qlabel -> qsys -> Prop :=
  | q_call o k f i m : f i = QOut ->
      qstep {| q_sinks := o; q_locks := k; q_at := f |} (QCall i m) {| q_sinks := o; q_locks := k; q_at := qmove i (QAt m 0) f |}
  (* lines 161-186 *)
  | q_make o ks f i m k l x j : f i = QAt m k -> nth_error chain k = Some (l, x) -> post_message l m = Ok j ->
      qstep {| q_sinks := o; q_locks := ks; q_at := f |} (QTau i) {| q_sinks := o; q_locks := ks; q_at := qmove i (QWait m k (post_call m k j)) f |}
  | q_fail o ks f i m k l x e : f i = QAt m k -> nth_error chain k = Some (l, x) -> post_message l m = Exn e ->
      qstep {| q_sinks := o; q_locks := ks; q_at := f |} (QBack i m (inr e)) {| q_sinks := o; q_locks := ks; q_at := qmove i QOut f |}
  (* the end of the chain, lines 38-44 *)
  | q_end o ks f i m k : f i = QAt m k -> nth_error chain k = None ->
      qstep {| q_sinks := o; q_locks := ks; q_at := f |} (QBack i m (inl tt)) {| q_sinks := o; q_locks := ks; q_at := qmove i QOut f |}
  (* lines 196-201, 215-224 *)
  | q_take o ks f i m k c l x : f i = QWait m k c -> nth_error chain k = Some (l, x) -> ks k = None ->
      qstep {| q_sinks := o; q_locks := ks; q_at := f |} (QTau i)
            {| q_sinks := o; q_locks := qlock k (Some i) ks; q_at := qmove i (QIn m k c (link_body early x c)) f |}
  | q_write o ks f i m k c l x g p : f i = QIn m k c (CStep g p) -> nth_error chain k = Some (l, x) ->
      qstep {| q_sinks := o; q_locks := ks; q_at := f |} (QTau i)
            {| q_sinks := qsink x (g (o x)) o; q_locks := ks; q_at := qmove i (QIn m k c (p (o x))) f |}
  (* lines 187-188: the next logger *)
  | q_ret o ks f i m k c : f i = QIn m k c (CRet tt) ->
      qstep {| q_sinks := o; q_locks := ks; q_at := f |} (QDone i k c (inl tt))
            {| q_sinks := o; q_locks := qlock k None ks; q_at := qmove i (QAt m (S k)) f |}
  | q_stop o ks f i m k c e : f i = QIn m k c (CStop e) ->
      qstep {| q_sinks := o; q_locks := ks; q_at := f |} (QDone i k c (inr e))
            {| q_sinks := o; q_locks := qlock k None ks; q_at := qmove i (QFail m e) f |}
  | q_leave o ks f i m e : f i = QFail m e ->
      qstep {| q_sinks := o; q_locks := ks; q_at := f |} (QBack i m (inr e)) {| q_sinks := o; q_locks := ks; q_at := qmove i QOut f |}.
  Inductive qrun : qsys -> list qlabel -> qsys -> Prop :=
  | qr_nil s : qrun s [] s
  | qr_snoc s ls s1 l s2 : qrun s ls s1 -> qstep s1 l s2 -> qrun s (ls ++ [l]) s2.
End Chain.
Definition q_init (o : sink -> string) : qsys := {| q_sinks := o; q_locks := fun _ => None; q_at := fun _ => QOut |}.

(** ** For examples: what thread [i] does next; it calls with [m] if it is in no logger. *)
Definition qexec1 (early : bool) (chain : list (level * sink)) (i : nat) (m : option post) (s : qsys) : option (qlabel * qsys) :=
  let o := q_sinks s in let ks := q_locks s in let f := q_at s in
  match f i with
  | QOut => match m with Some m => Some (QCall i m, {| q_sinks := o; q_locks := ks; q_at := qmove i (QAt m 0) f |}) | None => None end
  | QAt m k =>
      match nth_error chain k with
      | None => Some (QBack i m (inl tt), {| q_sinks := o; q_locks := ks; q_at := qmove i QOut f |})
      | Some (l, x) =>
          match post_message l m with
          | Ok j => Some (QTau i, {| q_sinks := o; q_locks := ks; q_at := qmove i (QWait m k (post_call m k j)) f |})
          | Exn e => Some (QBack i m (inr e), {| q_sinks := o; q_locks := ks; q_at := qmove i QOut f |})
          | UB _ => None
          end
      end
  | QWait m k c =>
      match nth_error chain k, ks k with
      | Some (l, x), None => Some (QTau i, {| q_sinks := o; q_locks := qlock k (Some i) ks; q_at := qmove i (QIn m k c (link_body early x c)) f |})
      | _, _ => None
      end
  | QIn m k c (CStep g p) =>
      match nth_error chain k with
      | Some (l, x) => Some (QTau i, {| q_sinks := qsink x (g (o x)) o; q_locks := ks; q_at := qmove i (QIn m k c (p (o x))) f |})
      | None => None
      end
  | QIn m k c (CRet tt) => Some (QDone i k c (inl tt), {| q_sinks := o; q_locks := qlock k None ks; q_at := qmove i (QAt m (S k)) f |})
  | QIn m k c (CStop e) => Some (QDone i k c (inr e), {| q_sinks := o; q_locks := qlock k None ks; q_at := qmove i (QFail m e) f |})
  | QFail m e => Some (QBack i m (inr e), {| q_sinks := o; q_locks := ks; q_at := qmove i QOut f |})
  end.
Fixpoint qexec (early : bool) (chain : list (level * sink)) (l : list (nat * option post)) (ls : list qlabel) (s : qsys) : list qlabel * qsys :=
  match l with
  | [] => (ls, s)
  | (i, m) :: l => match qexec1 early chain i m s with Some (a, s') => qexec early chain l (ls ++ [a]) s' | None => qexec early chain l ls s end
  end.
