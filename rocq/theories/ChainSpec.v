(** What a chain of loggers writes, C102. *)
From Verif Require Import Base Json JsonText Auth Message Logger Pretty Monitor MonitorProofs Chain.

Section Spec.
  Variable (early : bool) (chain : list (level * sink)).
  Definition link_text (x : sink) (c : lcall) : string := match x with SConsole => console_text early c | SFile _ => file_text c end.
  Definition link_result (x : sink) (c : lcall) : unit + exn := match x with SConsole => console_result c | SFile _ => file_result c end.
  (** The calls the k-th logger has finished, in order. *)
  Definition done_by (k : nat) (ls : list qlabel) : list lcall :=
    flat_map (fun l => match l with QDone _ k' c _ => if Nat.eqb k' k then [c] else [] | _ => [] end) ls.
  (** The texts written to a sink, by any logger, in the order in which they were finished. *)
  Definition done_at (x : sink) (ls : list qlabel) : list string :=
    flat_map (fun l => match l with
      | QDone _ k c _ => match nth_error chain k with Some (_, y) => if sink_eqb y x then [link_text x c] else [] | None => [] end
      | _ => [] end) ls.
  (** Of a text in pieces, each with the number of a logger: what one logger wrote. *)
  Definition part (k : nat) (pieces : list (nat * string)) : string := sconcat (map snd (filter (fun p => Nat.eqb (fst p) k) pieces)).
End Spec.
Definition q_no_call (l : qlabel) : Prop := match l with QCall _ _ => False | _ => True end.
(** The calls of the chain do not overlap; the second argument is the thread that is in it. *)
Inductive in_turns : list qlabel -> option nat -> Prop :=
| it_nil : in_turns [] None
| it_call ls i m : in_turns ls None -> in_turns (ls ++ [QCall i m]) (Some i)
| it_tau ls i : in_turns ls (Some i) -> in_turns (ls ++ [QTau i]) (Some i)
| it_done ls i k c r : in_turns ls (Some i) -> in_turns (ls ++ [QDone i k c r]) (Some i)
| it_back ls i m r : in_turns ls (Some i) -> in_turns (ls ++ [QBack i m r]) None.
Definition of_thread (i : nat) (l : qlabel) : Prop :=
  match l with QCall j _ | QTau j | QDone j _ _ _ | QBack j _ _ => j = i end.
