(** UTF-8 validation DFA of the logger (src/xlogger_impl.cpp) and an independent specification. *)
From Verif Require Import Base.

(** The table [utf8d], src/xlogger_impl.cpp:64-83, transcribed entry by entry. *)
Definition utf8d : list nat :=
  [
   0; 0; 0; 0; 0; 0; 0; 0; 0; 0; 0; 0; 0; 0; 0; 0; 0; 0; 0; 0; 0; 0; 0; 0; 0; 0; 0; 0; 0; 0; 0; 0;  (* 00..1F *)
   0; 0; 0; 0; 0; 0; 0; 0; 0; 0; 0; 0; 0; 0; 0; 0; 0; 0; 0; 0; 0; 0; 0; 0; 0; 0; 0; 0; 0; 0; 0; 0;  (* 20..3F *)
   0; 0; 0; 0; 0; 0; 0; 0; 0; 0; 0; 0; 0; 0; 0; 0; 0; 0; 0; 0; 0; 0; 0; 0; 0; 0; 0; 0; 0; 0; 0; 0;  (* 40..5F *)
   0; 0; 0; 0; 0; 0; 0; 0; 0; 0; 0; 0; 0; 0; 0; 0; 0; 0; 0; 0; 0; 0; 0; 0; 0; 0; 0; 0; 0; 0; 0; 0;  (* 60..7F *)
   1; 1; 1; 1; 1; 1; 1; 1; 1; 1; 1; 1; 1; 1; 1; 1; 9; 9; 9; 9; 9; 9; 9; 9; 9; 9; 9; 9; 9; 9; 9; 9;  (* 80..9F *)
   7; 7; 7; 7; 7; 7; 7; 7; 7; 7; 7; 7; 7; 7; 7; 7; 7; 7; 7; 7; 7; 7; 7; 7; 7; 7; 7; 7; 7; 7; 7; 7;  (* A0..BF *)
   8; 8; 2; 2; 2; 2; 2; 2; 2; 2; 2; 2; 2; 2; 2; 2; 2; 2; 2; 2; 2; 2; 2; 2; 2; 2; 2; 2; 2; 2; 2; 2;  (* C0..DF *)
   10; 3; 3; 3; 3; 3; 3; 3; 3; 3; 3; 3; 3; 4; 3; 3;  (* E0..EF *)
   11; 6; 6; 6; 5; 8; 8; 8; 8; 8; 8; 8; 8; 8; 8; 8;  (* F0..FF *)
   0; 1; 2; 3; 5; 8; 7; 1; 1; 1; 4; 6; 1; 1; 1; 1;  (* s0..s0 *)
   1; 1; 1; 1; 1; 1; 1; 1; 1; 1; 1; 1; 1; 1; 1; 1; 1; 0; 1; 1; 1; 1; 1; 0; 1; 0; 1; 1; 1; 1; 1; 1;  (* s1..s2 *)
   1; 2; 1; 1; 1; 1; 1; 2; 1; 2; 1; 1; 1; 1; 1; 1; 1; 1; 1; 1; 1; 1; 1; 2; 1; 1; 1; 1; 1; 1; 1; 1;  (* s3..s4 *)
   1; 2; 1; 1; 1; 1; 1; 1; 1; 2; 1; 1; 1; 1; 1; 1; 1; 1; 1; 1; 1; 1; 1; 3; 1; 3; 1; 1; 1; 1; 1; 1;  (* s5..s6 *)
   1; 3; 1; 1; 1; 1; 1; 3; 1; 3; 1; 1; 1; 1; 1; 1; 1; 3; 1; 1; 1; 1; 1; 1; 1; 1; 1; 1; 1; 1; 1; 1  (* s7..s8 *)
  ].

Definition UTF8_ACCEPT : nat := 0.
Definition UTF8_REJECT : nat := 1.

(** [type] of a byte, src/xlogger_impl.cpp:85. *)
Definition utf8_type (b : ascii) : nat := nth (N.to_nat (code b)) utf8d UTF8_REJECT.

(** Next state, src/xlogger_impl.cpp:91. The default of [nth] is never used: see
    [utf8_index_in_range] in Utf8Proofs.v. *)
Definition utf8_next (st : nat) (b : ascii) : nat := nth (256 + st * 16 + utf8_type b) utf8d UTF8_REJECT.

(** [decode_utf8], src/xlogger_impl.cpp:61-92: new state and code point (uint32). *)
Definition decode_utf8 (st : nat) (codep : N) (b : ascii) : nat * N :=
  let type := utf8_type b in
  let codep' :=
    if negb (Nat.eqb st UTF8_ACCEPT)
    then N.lor (N.land (code b) 63) (N.shiftl codep 6 mod 2 ^ 32)
    else N.land (N.shiftr 255 (N.of_nat type)) (code b) in
  (utf8_next st b, codep').

(** The loop of [is_utf8_valid], src/xlogger_impl.cpp:94-105. *)
Fixpoint utf8_loop (st : nat) (codep : N) (s : string) : nat :=
  match s with
  | "" => st
  | String b s' => let (st', cp') := decode_utf8 st codep b in utf8_loop st' cp' s'
  end.
Definition is_utf8_valid (s : string) : bool := Nat.eqb (utf8_loop 0 0 s) 0.

(** ** Specification: RFC 3629 as an encoder of Unicode scalar values. *)
Definition scalar (cp : N) : Prop := (cp < 0xD800 \/ (0xE000 <= cp /\ cp <= 0x10FFFF))%N.
Definition utf8_encode (cp : N) : string :=
  (if cp <? 0x80 then String (chr cp) ""
   else if cp <? 0x800 then String (chr (0xC0 + cp / 64)) (String (chr (0x80 + cp mod 64)) "")
   else if cp <? 0x10000 then
     String (chr (0xE0 + cp / 4096))
       (String (chr (0x80 + (cp / 64) mod 64)) (String (chr (0x80 + cp mod 64)) ""))
   else
     String (chr (0xF0 + cp / 262144))
       (String (chr (0x80 + (cp / 4096) mod 64))
          (String (chr (0x80 + (cp / 64) mod 64)) (String (chr (0x80 + cp mod 64)) ""))))%N.
(** A byte string is well-formed UTF-8 when it is the encoding of a sequence of scalar values. *)
Definition utf8_text (s : string) : Prop :=
  exists cps, Forall scalar cps /\ s = sconcat (List.map utf8_encode cps).
