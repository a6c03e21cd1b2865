(** [iso8601_now] (src/xmessage.cpp:227-244) called by several threads. [std::gmtime] returns a pointer to
    one object of type [tm] for the whole process, and [std::put_time] reads this object afterwards. Of the
    fields of [tm] those that are printed are modelled. *)
From Verif Require Import Base Json JsonText Logger.

Inductive field := FYear | FMonth | FDay | FHour | FMinute | FSecond.
(** The object, read as the values printed (the year itself, months from 1). *)
Definition tm : Type := field -> Z.
Scheme Equality for field.
Definition set_field (f : field) (z : Z) (c : tm) : tm := fun g => if field_beq g f then z else c g.
(** What [gmtime] writes for a number of microseconds; [to_time_t] cuts it to seconds (line 235). *)
Definition gm (micros : Z) : tm :=
  let secs := (micros / 1000000)%Z in
  let '(y, m, d) := civil (secs / 86400) in
  let s := (secs mod 86400)%Z in
  fun f => match f with FYear => y | FMonth => m | FDay => d | FHour => s / 3600 | FMinute => s / 60 mod 60 | FSecond => s mod 60 end%Z.
Definition all_fields : list field := [FYear; FMonth; FDay; FHour; FMinute; FSecond].
(** The text, lines 236-241: "%FT%T", the fraction of the thread's own [now]. *)
Definition stamp (c : tm) (micros : Z) : string :=
  dec_of_Z (c FYear) +++ "-" +++ two (c FMonth) +++ "-" +++ two (c FDay) +++ "T" +++ two (c FHour) +++ ":" +++ two (c FMinute) +++ ":" +++ two (c FSecond)
  +++ "." +++ dec_of_Z (micros mod 1000000) +++ "Z".

(** A thread: not in the function; in [gmtime], with the fields still to be written, in any order; in
    [put_time], with the values read and the fields still to be read, in any order. *)
Inductive dating :=
| Away
| Writes (now : Z) (left : list field)
| Reads (now : Z) (got : tm) (left : list field).
Record dsystem := { t_obj : tm; t_at : nat -> dating }.
Inductive dlab := TCall (i : nat) (now : Z) | TBack (i : nat) (s : string) | TTau (i : nat).
Definition put_at (i : nat) (x : dating) (f : nat -> dating) : nat -> dating := fun j => if Nat.eqb j i then x else f j.
Inductive date_step : dsystem -> dlab -> dsystem -> Prop :=
| t_call c f i now : f i = Away -> (0 <= now)%Z ->                                        (* line 232 *)
    date_step {| t_obj := c; t_at := f |} (TCall i now) {| t_obj := c; t_at := put_at i (Writes now all_fields) f |}
| t_write c f i now a x b : f i = Writes now (a ++ x :: b) ->
    date_step {| t_obj := c; t_at := f |} (TTau i) {| t_obj := set_field x (gm now x) c; t_at := put_at i (Writes now (a ++ b)) f |}
| t_pass c f i now : f i = Writes now [] ->
    date_step {| t_obj := c; t_at := f |} (TTau i) {| t_obj := c; t_at := put_at i (Reads now (fun _ => 0%Z) all_fields) f |}
| t_read c f i now got a x b : f i = Reads now got (a ++ x :: b) ->
    date_step {| t_obj := c; t_at := f |} (TTau i) {| t_obj := c; t_at := put_at i (Reads now (set_field x (c x) got) (a ++ b)) f |}
| t_back c f i now got : f i = Reads now got [] ->
    date_step {| t_obj := c; t_at := f |} (TBack i (stamp got now)) {| t_obj := c; t_at := put_at i Away f |}.
Inductive date_run : dsystem -> list dlab -> dsystem -> Prop :=
| tr_nil s : date_run s [] s
| tr_snoc s ls s1 l s2 : date_run s ls s1 -> date_step s1 l s2 -> date_run s (ls ++ [l]) s2.
(** The start: the object has some value, no thread is in the function. *)
Definition t_init (c : tm) : dsystem := {| t_obj := c; t_at := fun _ => Away |}.
