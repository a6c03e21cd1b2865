(** JSON values and the nlohmann::json accessors used by xeus.
    nlohmann::json is an external library (found by /repo/CMakeLists.txt:74-80, not part of /repo);
    the semantics below are those of nlohmann 3.x and belong to the trusted base. *)
From Verif Require Import Base.

(** A JSON value. Objects are lists of pairs sorted by key ([std::map]); [JInt] stands for
    number_integer and number_unsigned; a [JFloat] is represented by a decimal literal of
    its value (simplification: rounding to binary64 is not modelled; a literal that is not a
    JSON float literal stands for a non-finite number, which dumps as [null]). *)
Inductive json : Type :=
| JNull
| JBool (b : bool)
| JInt (z : Z)
| JFloat (lit : string)
| JStr (s : string)
| JArr (l : list json)
| JObj (m : list (string * json)).

Section JsonInd.
  Variable P : json -> Prop.
  Hypothesis Hnull : P JNull.
  Hypothesis Hbool : forall b, P (JBool b).
  Hypothesis Hint : forall z, P (JInt z).
  Hypothesis Hfloat : forall s, P (JFloat s).
  Hypothesis Hstr : forall s, P (JStr s).
  Hypothesis Harr : forall l, Forall P l -> P (JArr l).
  Hypothesis Hobj : forall m, Forall (fun p => P (snd p)) m -> P (JObj m).
  Fixpoint json_ind' (j : json) : P j :=
    match j with
    | JNull => Hnull
    | JBool b => Hbool b
    | JInt z => Hint z
    | JFloat s => Hfloat s
    | JStr s => Hstr s
    | JArr l =>
        Harr l ((fix go (l : list json) : Forall P l :=
                   match l with
                   | [] => Forall_nil P
                   | x :: l' => Forall_cons x (json_ind' x) (go l')
                   end) l)
    | JObj m =>
        Hobj m ((fix go (m : list (string * json)) : Forall (fun p => P (snd p)) m :=
                   match m with
                   | [] => Forall_nil _
                   | p :: m' => Forall_cons p (json_ind' (snd p)) (go m')
                   end) m)
    end.
End JsonInd.

(** Decidable equality ([nl::json::operator==] on values without floats). *)
Fixpoint json_eqb (a b : json) : bool :=
  match a, b with
  | JNull, JNull => true
  | JBool x, JBool y => Bool.eqb x y
  | JInt x, JInt y => Z.eqb x y
  | JFloat x, JFloat y => String.eqb x y
  | JStr x, JStr y => String.eqb x y
  | JArr x, JArr y =>
      (fix go (x y : list json) : bool :=
         match x, y with
         | [], [] => true
         | a :: x', b :: y' => json_eqb a b && go x' y'
         | _, _ => false
         end) x y
  | JObj x, JObj y =>
      (fix go (x y : list (string * json)) : bool :=
         match x, y with
         | [], [] => true
         | (k, a) :: x', (k', b) :: y' => String.eqb k k' && json_eqb a b && go x' y'
         | _, _ => false
         end) x y
  | _, _ => false
  end.

Definition is_object (j : json) : bool := match j with JObj _ => true | _ => false end.
Definition is_null (j : json) : bool := match j with JNull => true | _ => false end.
Definition is_array (j : json) : bool := match j with JArr _ => true | _ => false end.

(** Error texts are abbreviated to the nlohmann error id. *)
Definition type_error_302 : exn := Std "type_error.302".
Definition type_error_304 : exn := Std "type_error.304".
Definition type_error_305 : exn := Std "type_error.305".
Definition type_error_306 : exn := Std "type_error.306".
Definition out_of_range_403 : exn := Std "out_of_range.403".

(** ** Number literals *)
Fixpoint span_digits (s : string) : string * string :=
  match s with
  | String c s' =>
      if is_digit c then let (d, r) := span_digits s' in (String c d, r) else ("", s)
  | "" => ("", "")
  end.
Fixpoint digits_val (acc : Z) (s : string) : Z :=
  match s with
  | "" => acc
  | String c s' => digits_val (10 * acc + (Z.of_N (code c) - 48)) s'
  end.

(** Integer part: "0" or a digit 1-9 followed by digits (nlohmann lexer::scan_number). *)
Definition scan_int (s : string) : option (string * string) :=
  match s with
  | String "0" r => Some ("0", r)
  | String c _ => if is_digit c then Some (span_digits s) else None
  | "" => None
  end.
Definition scan_frac (s : string) : option (string * string) :=
  match s with
  | String "." r =>
      let (d, r') := span_digits r in
      if String.eqb d "" then None else Some (String "." d, r')
  | _ => Some ("", s)
  end.
Definition scan_exp (s : string) : option (string * string) :=
  match s with
  | String c r =>
      if Ascii.eqb c "e" || Ascii.eqb c "E" then
        let '(sg, r1) :=
          match r with
          | String "+" r' => ("+", r')
          | String "-" r' => ("-", r')
          | _ => ("", r)
          end in
        let (d, r2) := span_digits r1 in
        if String.eqb d "" then None else Some (String c (sg +++ d), r2)
      else Some ("", s)
  | "" => Some ("", "")
  end.
Definition scan_sign (s : string) : string * string :=
  match s with String "-" r => ("-", r) | _ => ("", s) end.

(** A scanned number: sign, integer digits, fraction (with the dot), exponent (with the e). *)
Record numtok := { nt_sign : string; nt_int : string; nt_frac : string; nt_exp : string }.
Definition scan_number (s : string) : option (numtok * string) :=
  let (sg, r0) := scan_sign s in
  match scan_int r0 with
  | None => None
  | Some (i, r1) =>
      match scan_frac r1 with
      | None => None
      | Some (f, r2) =>
          match scan_exp r2 with
          | None => None
          | Some (e, r3) => Some ({| nt_sign := sg; nt_int := i; nt_frac := f; nt_exp := e |}, r3)
          end
      end
  end.
Definition nt_text (t : numtok) : string := nt_sign t +++ nt_int t +++ nt_frac t +++ nt_exp t.
Definition nt_is_float (t : numtok) : bool :=
  negb (String.eqb (nt_frac t) "") || negb (String.eqb (nt_exp t) "").

(** Decimal exponent of an exponent text ("" or e[+-]digits). *)
Definition exp_val (e : string) : Z :=
  match e with
  | "" => 0
  | String _ r =>
      match r with
      | String "-" d => - digits_val 0 d
      | String "+" d => digits_val 0 d
      | d => digits_val 0 d
      end
  end.
(** Value of a token as [m * 10^e]. *)
Definition nt_mant (t : numtok) : Z :=
  let m := digits_val 0 (nt_int t +++ sdrop 1 (nt_frac t)) in
  if String.eqb (nt_sign t) "-" then - m else m.
Definition nt_exp10 (t : numtok) : Z := exp_val (nt_exp t) - Z.of_nat (slen (sdrop 1 (nt_frac t))).

(** |value| < 2^1024 - 2^970: the literal does not overflow binary64. *)
Definition dbl_limit : Z := 2 ^ 1024 - 2 ^ 970.
Definition nt_finite (t : numtok) : bool :=
  let m := Z.abs (nt_mant t) in
  let e := nt_exp10 t in
  (if 0 <=? e then m * 10 ^ e <? dbl_limit else m <? dbl_limit * 10 ^ (- e))%Z.

(** A JSON float literal that is finite as a double. *)
Definition float_lit (s : string) : bool :=
  match scan_number s with
  | Some (t, "") => nt_is_float t && nt_finite t
  | _ => false
  end.

(** Truncation towards zero of a float literal. *)
Definition float_trunc (s : string) : option Z :=
  match scan_number s with
  | Some (t, "") =>
      let m := nt_mant t in let e := nt_exp10 t in
      Some (if 0 <=? e then m * 10 ^ e else Z.quot m (10 ^ (- e)))%Z
  | _ => None
  end.

(** ** Conversions [get<T>] *)
Definition int_min : Z := - 2 ^ 31.
Definition int_max : Z := 2 ^ 31 - 1.
Definition wrap32 (z : Z) : Z := ((z + 2 ^ 31) mod 2 ^ 32 - 2 ^ 31)%Z.
Definition in_int (z : Z) : bool := (int_min <=? z)%Z && (z <=? int_max)%Z.

Definition get_string (j : json) : res string :=
  match j with JStr s => Ok s | _ => Exn type_error_302 end.
Definition get_bool (j : json) : res bool :=
  match j with JBool b => Ok b | _ => Exn type_error_302 end.
(** [get<int>]: integers are truncated to 32 bits (two's complement), booleans give 0/1,
    floats are truncated (undefined outside [int]). *)
Definition get_int (j : json) : res Z :=
  match j with
  | JInt z => Ok (wrap32 z)
  | JBool b => Ok (if b then 1 else 0)%Z
  | JFloat s =>
      match float_trunc s with
      | Some z => if in_int z then Ok z else UB "float to int out of range"
      | None => UB "float to int out of range"
      end
  | _ => Exn type_error_302
  end.

(** ** Access *)
(** [j.value(key, default)]. *)
Definition jvalue {A} (get : json -> res A) (key : string) (def : A) (j : json) : res A :=
  match j with
  | JObj m => match mfind key m with Some v => get v | None => Ok def end
  | _ => Exn type_error_306
  end.
Definition value_string := jvalue get_string.
Definition value_bool := jvalue get_bool.
Definition value_int := jvalue get_int.
Definition value_json := jvalue (fun j => Ok j).

(** const [j[key]]: a missing key is undefined behaviour. *)
Definition jget (key : string) (j : json) : res json :=
  match j with
  | JObj m => match mfind key m with Some v => Ok v | None => UB "operator[] const: missing key" end
  | _ => Exn type_error_305
  end.
(** non-const [j[key]] used as an rvalue: a missing key reads as null
    (the insertion of the null is visible in the returned object). *)
Definition jget_mut (key : string) (j : json) : res (json * json) :=
  match j with
  | JNull => Ok (JNull, JObj [(key, JNull)])
  | JObj m => match mfind key m with Some v => Ok (v, j) | None => Ok (JNull, JObj (mset key JNull m)) end
  | _ => Exn type_error_305
  end.
(** [j.at(key)]. *)
Definition jat (key : string) (j : json) : res json :=
  match j with
  | JObj m => match mfind key m with Some v => Ok v | None => Exn out_of_range_403 end
  | _ => Exn type_error_304
  end.
(** [j[key] = v] on a non-const value. *)
Definition jset (key : string) (v : json) (j : json) : res json :=
  match j with
  | JNull => Ok (JObj [(key, v)])
  | JObj m => Ok (JObj (mset key v m))
  | _ => Exn type_error_305
  end.
(** Field of an object value (total; for specifications). *)
Definition jfield (key : string) (j : json) : option json :=
  match j with JObj m => mfind key m | _ => None end.

(** An object literal. *)
Definition jobj (l : list (string * json)) : json :=
  JObj (fold_left (fun m p => mset (fst p) (snd p) m) l []).

(** ** Well-formed values: sorted objects, integers in the 64-bit ranges. *)
Fixpoint jwf (j : json) : bool :=
  match j with
  | JNull | JBool _ | JStr _ => true
  | JInt z => (- 2 ^ 63 <=? z)%Z && (z <? 2 ^ 64)%Z
  | JFloat _ => true
  | JArr l => (fix go l := match l with [] => true | x :: l' => jwf x && go l' end) l
  | JObj m =>
      msorted m && (fix go m := match m with [] => true | (_, x) :: m' => jwf x && go m' end) m
  end.
Definition jwf_all (l : list json) : bool := forallb jwf l.
Definition jwf_members (m : list (string * json)) : bool := forallb (fun p => jwf (snd p)) m.
Lemma jwf_arr l : jwf (JArr l) = jwf_all l.
Proof. cbn. induction l as [|x l IH]; cbn; [reflexivity | now rewrite IH]. Qed.
Lemma jwf_obj m : jwf (JObj m) = msorted m && jwf_members m.
Proof. cbn. f_equal. induction m as [|[k x] m IH]; cbn; [reflexivity | now rewrite IH]. Qed.
