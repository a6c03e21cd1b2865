(** Hexadecimal encoding and identifiers. *)
From Verif Require Import Base.

(** A hexadecimal digit as printed by [std::hex]. *)
Definition hex_digit (n : N) : ascii := (if n <? 10 then chr (48 + n) else chr (87 + n))%N.
(** [oss << std::hex << v] for 0 <= v < 256 (no padding). *)
Definition hex_put (v : N) : string :=
  (if v <? 16 then String (hex_digit v) "" else String (hex_digit (v / 16)) (String (hex_digit (v mod 16)) ""))%N.
(** [std::setw(w) << std::setfill('0')]: pad on the left. *)
Fixpoint zeros (n : nat) : string := match n with 0 => "" | S n' => String "0" (zeros n') end.
Definition setw (w : nat) (s : string) : string := zeros (w - slen s) +++ s.

(** [hex_string], src/xstring_utils.hpp:20-30, on a buffer of unsigned char. *)
Fixpoint hex_string (buffer : string) : string :=
  match buffer with
  | "" => ""
  | String b rest => setw 2 (hex_put (code b)) +++ hex_string rest
  end.

(** [new_xguid], src/xguid.cpp:33-97 (here: from the 16 bytes of the platform's generator);
    the result is stored in an [xfixed_string<55>] (include/xeus/xguid.hpp:26-27), which holds up to 55
    characters. *)
Definition xguid_capacity : nat := 55.
Definition xguid_of_bytes (bytes16 : string) : string := hex_string bytes16.
