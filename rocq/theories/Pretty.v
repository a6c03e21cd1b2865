(** [nl::json::dump(4)], used by the loggers (src/xlogger_impl.cpp:200, 223): nlohmann's serializer::dump
    with pretty_print and an indentation step of 4 spaces, strict about UTF-8. *)
From Verif Require Import Base Json JsonText.

Definition newline : string := String (chr 10) "".
Fixpoint spaces (n : nat) : string := match n with 0 => "" | S n => String " " (spaces n) end.
(** [i] is the current indentation. An empty array or object is written without a line break. *)
Fixpoint pretty_opt (i : nat) (j : json) : option string :=
  match j with
  | JArr [] => Some "[]"
  | JArr l =>
      option_map (fun t => "[" +++ newline +++ t +++ newline +++ spaces i +++ "]")
        ((fix go (l : list json) : option string :=
            match l with
            | [] => Some ""
            | x :: l' =>
                match pretty_opt (i + 4) x, go l' with
                | Some a, Some b => Some (spaces (i + 4) +++ a +++ match l' with [] => "" | _ => "," +++ newline +++ b end)
                | _, _ => None
                end
            end) l)
  | JObj [] => Some "{}"
  | JObj m =>
      option_map (fun t => "{" +++ newline +++ t +++ newline +++ spaces i +++ "}")
        ((fix go (m : list (string * json)) : option string :=
            match m with
            | [] => Some ""
            | (k, x) :: m' =>
                match dump_str EStrict k, pretty_opt (i + 4) x, go m' with
                | Some kk, Some a, Some b => Some (spaces (i + 4) +++ kk +++ ": " +++ a +++ match m' with [] => "" | _ => "," +++ newline +++ b end)
                | _, _, _ => None
                end
            end) m)
  | j => dump_opt EStrict j
  end.
(** The outermost value is not indented. *)
Definition pretty (j : json) : res string :=
  match pretty_opt 0 j with Some t => Ok t | None => Exn type_error_316 end.
