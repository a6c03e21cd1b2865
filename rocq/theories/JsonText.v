(** JSON text: the nlohmann serializer [dump(-1, ' ', false, handler)] and parser
    [json::parse(begin, end)] as called by src/xmessage.cpp:28-38.
    nlohmann::json is an external library: these definitions transcribe its documented
    behaviour (serializer::dump_escaped, lexer, parser of version 3.x) and are part of the
    trusted base. *)
From Verif Require Import Base Json Utf8.

(** [nl::json::error_handler_t]. *)
Inductive ehandler := EStrict | EReplace | EIgnore.

Definition chr_bs : ascii := "\"%char.
Definition chr_quote : ascii := """"%char.
Definition hexdig (n : N) : ascii := (if n <? 10 then chr (48 + n) else chr (87 + n))%N.

(** Escaping of a one-byte code point. *)
Definition esc_char (c : ascii) : string :=
  let n := code c in
  (if n =? 8 then "\b" else if n =? 9 then "\t" else if n =? 10 then "\n"
   else if n =? 12 then "\f" else if n =? 13 then "\r"
   else if n =? 34 then String chr_bs (String chr_quote "")
   else if n =? 92 then String chr_bs (String chr_bs "")
   else if n <=? 31 then "\u00" +++ String (hexdig (n / 16)) (String (hexdig (n mod 16)) "")
   else String c "")%N.

(** U+FFFD in UTF-8. *)
Definition repl_char : string := String (chr 239) (String (chr 191) (String (chr 189) "")).
Definition on_bad (h : ehandler) : string := match h with EReplace => repl_char | _ => "" end.

(** serializer::dump_escaped: [pend] are the bytes copied since the last accepted code point
    (dropped when the sequence turns out to be invalid); a byte that is rejected in the
    middle of a sequence is read again from the initial state. [None]: type_error.316. *)
Fixpoint dump_esc (h : ehandler) (st : nat) (pend : string) (s : string) : option string :=
  match s with
  | "" =>
      if Nat.eqb st 0 then Some ""
      else match h with EStrict => None | _ => Some (on_bad h) end
  | String c s' =>
      match utf8_next st c with
      | 0 =>
          option_map (fun t => (if Nat.eqb st 0 then esc_char c else pend +++ String c "") +++ t)
                     (dump_esc h 0 "" s')
      | 1 =>
          match h with
          | EStrict => None
          | _ =>
              if Nat.eqb st 0 then option_map (fun t => on_bad h +++ t) (dump_esc h 0 "" s')
              else
                match utf8_next 0 c with
                | 0 => option_map (fun t => on_bad h +++ esc_char c +++ t) (dump_esc h 0 "" s')
                | 1 => option_map (fun t => on_bad h +++ on_bad h +++ t) (dump_esc h 0 "" s')
                | st' => option_map (fun t => on_bad h +++ t) (dump_esc h st' (String c "") s')
                end
          end
      | st' => dump_esc h st' (pend +++ String c "") s'
      end
  end.

Definition quoted (t : string) : string := String chr_quote (t +++ String chr_quote "").
Definition dump_str (h : ehandler) (s : string) : option string := option_map quoted (dump_esc h 0 "" s).

(** serializer::dump with indent -1. *)
Fixpoint dump_opt (h : ehandler) (j : json) : option string :=
  match j with
  | JNull => Some "null"
  | JBool true => Some "true"
  | JBool false => Some "false"
  | JInt z => Some (dec_of_Z z)
  | JFloat l => Some (if float_lit l then l else "null")
  | JStr s => dump_str h s
  | JArr l =>
      option_map (fun t => "[" +++ t +++ "]")
        ((fix go (l : list json) : option string :=
            match l with
            | [] => Some ""
            | x :: l' =>
                match dump_opt h x, go l' with
                | Some a, Some b => Some (a +++ match l' with [] => "" | _ => "," +++ b end)
                | _, _ => None
                end
            end) l)
  | JObj m =>
      option_map (fun t => "{" +++ t +++ "}")
        ((fix go (m : list (string * json)) : option string :=
            match m with
            | [] => Some ""
            | (k, x) :: m' =>
                match dump_str h k, dump_opt h x, go m' with
                | Some kk, Some a, Some b => Some (kk +++ ":" +++ a +++ match m' with [] => "" | _ => "," +++ b end)
                | _, _, _ => None
                end
            end) m)
  end.

Definition type_error_316 : exn := Std "type_error.316".
Definition dump (h : ehandler) (j : json) : res string :=
  match dump_opt h j with Some t => Ok t | None => Exn type_error_316 end.

(** ** Parser *)
Definition is_ws (c : ascii) : bool :=
  let n := code c in ((n =? 32) || (n =? 9) || (n =? 10) || (n =? 13))%N.
Fixpoint skip_ws (s : string) : string :=
  match s with String c r => if is_ws c then skip_ws r else s | "" => "" end.

Definition hexval (c : ascii) : option N :=
  let n := code c in
  (if (48 <=? n) && (n <=? 57) then Some (n - 48)
   else if (65 <=? n) && (n <=? 70) then Some (n - 55)
   else if (97 <=? n) && (n <=? 102) then Some (n - 87) else None)%N.
Definition hex4 (a b c d : ascii) : option N :=
  match hexval a, hexval b, hexval c, hexval d with
  | Some x, Some y, Some z, Some w => Some (4096 * x + 256 * y + 16 * z + w)%N
  | _, _, _, _ => None
  end.
Definition escape_of (c : ascii) : option ascii :=
  let n := code c in
  (if n =? 34 then Some chr_quote else if n =? 92 then Some chr_bs else if n =? 47 then Some c
   else if n =? 98 then Some (chr 8) else if n =? 102 then Some (chr 12)
   else if n =? 110 then Some (chr 10) else if n =? 114 then Some (chr 13)
   else if n =? 116 then Some (chr 9) else None)%N.

Definition cons_res (c : string) (r : option (string * string)) : option (string * string) :=
  option_map (fun p => (c +++ fst p, snd p)) r.

(** lexer::scan_string after the opening quote: content and rest; [st] is the state of the
    UTF-8 check. *)
Fixpoint scan_str (st : nat) (s : string) {struct s} : option (string * string) :=
  match s with
  | "" => None
  | String c r =>
      if Nat.eqb st 0 then
        if Ascii.eqb c chr_quote then Some ("", r)
        else if Ascii.eqb c chr_bs then
          match r with
          | "" => None
          | String e r1 =>
              if Ascii.eqb e "u" then
                match r1 with
                | String a (String b (String c' (String d r2))) =>
                    match hex4 a b c' d with
                    | None => None
                    | Some cp =>
                        if ((55296 <=? cp) && (cp <=? 56319))%N then
                          match r2 with
                          | String bs (String u (String a2 (String b2 (String c2 (String d2 r3))))) =>
                              if Ascii.eqb bs chr_bs && Ascii.eqb u "u" then
                                match hex4 a2 b2 c2 d2 with
                                | Some lo =>
                                    if ((56320 <=? lo) && (lo <=? 57343))%N then
                                      cons_res (utf8_encode (65536 + (cp - 55296) * 1024 + (lo - 56320)))
                                               (scan_str 0 r3)
                                    else None
                                | None => None
                                end
                              else None
                          | _ => None
                          end
                        else if ((56320 <=? cp) && (cp <=? 57343))%N then None
                        else cons_res (utf8_encode cp) (scan_str 0 r2)
                    end
                | _ => None
                end
              else
                match escape_of e with
                | Some x => cons_res (String x "") (scan_str 0 r1)
                | None => None
                end
          end
        else if (code c <? 32)%N then None
        else match utf8_next 0 c with
             | 1 => None
             | st' => cons_res (String c "") (scan_str st' r)
             end
      else match utf8_next st c with
           | 1 => None
           | st' => cons_res (String c "") (scan_str st' r)
           end
  end.

(** Value of a number token: integers outside int64/uint64 become floats, floats that
    overflow are rejected (out_of_range.406). *)
Definition num_value (t : numtok) : option json :=
  if nt_is_float t then (if nt_finite t then Some (JFloat (nt_text t)) else None)
  else
    let z := nt_mant t in
    if ((- 2 ^ 63 <=? z) && (z <? 2 ^ 64))%Z then Some (JInt z)
    else
      let t' := {| nt_sign := nt_sign t; nt_int := nt_int t; nt_frac := ""; nt_exp := "e0" |} in
      if nt_finite t' then Some (JFloat (nt_text t')) else None.

(** Strip a literal prefix. *)
Fixpoint strip (p s : string) : option string :=
  match p, s with
  | "", _ => Some s
  | String a p', String b s' => if Ascii.eqb a b then strip p' s' else None
  | _, _ => None
  end.

(** Parser of a value; fuel [n] bounds the recursion depth; [JsonTextProofs.pval_fuel] shows that
    [2 * length + 1] is always enough, so running out of fuel is never observed. *)
Fixpoint pval (n : nat) (s : string) {struct n} : option (json * string) :=
  match n with
  | 0 => None
  | S n' =>
      match skip_ws s with
      | "" => None
      | String c r =>
          if Ascii.eqb c "{" then
            match skip_ws r with
            | String "}" r' => Some (JObj [], r')
            | _ => option_map (fun p => (JObj (fst p), snd p)) (pmembers n' [] r)
            end
          else if Ascii.eqb c "[" then
            match skip_ws r with
            | String "]" r' => Some (JArr [], r')
            | _ => option_map (fun p => (JArr (fst p), snd p)) (pelems n' r)
            end
          else if Ascii.eqb c chr_quote then
            option_map (fun p => (JStr (fst p), snd p)) (scan_str 0 r)
          else if Ascii.eqb c "t" then option_map (fun r => (JBool true, r)) (strip "true" (String c r))
          else if Ascii.eqb c "f" then option_map (fun r => (JBool false, r)) (strip "false" (String c r))
          else if Ascii.eqb c "n" then option_map (fun r => (JNull, r)) (strip "null" (String c r))
          else
            match scan_number (String c r) with
            | Some (t, r') => option_map (fun v => (v, r')) (num_value t)
            | None => None
            end
      end
  end
(** Elements of a non-empty array, up to and including the closing bracket. *)
with pelems (n : nat) (s : string) {struct n} : option (list json * string) :=
  match n with
  | 0 => None
  | S n' =>
      match pval n' s with
      | None => None
      | Some (v, r) =>
          match skip_ws r with
          | String "," r' => option_map (fun p => (v :: fst p, snd p)) (pelems n' r')
          | String "]" r' => Some ([v], r')
          | _ => None
          end
      end
  end
(** Members of a non-empty object, up to and including the closing brace; a repeated key
    overwrites the earlier value. *)
with pmembers (n : nat) (acc : list (string * json)) (s : string) {struct n} : option (list (string * json) * string) :=
  match n with
  | 0 => None
  | S n' =>
      match skip_ws s with
      | String q r0 =>
          if Ascii.eqb q chr_quote then
            match scan_str 0 r0 with
            | None => None
            | Some (k, r1) =>
                match skip_ws r1 with
                | String ":" r2 =>
                    match pval n' r2 with
                    | None => None
                    | Some (v, r3) =>
                        match skip_ws r3 with
                        | String "," r4 => pmembers n' (mset k v acc) r4
                        | String "}" r4 => Some (mset k v acc, r4)
                        | _ => None
                        end
                    end
                | _ => None
                end
            end
          else None
      | "" => None
      end
  end.

Definition fuel_for (s : string) : nat := 2 * slen s + 1.
Definition bom : string := String (chr 239) (String (chr 187) (String (chr 191) "")).
Definition skip_bom (s : string) : string := match strip bom s with Some r => r | None => s end.

(** After the value only white space may follow; a NUL byte is an end of input for nlohmann's
    lexer, whatever comes after it. *)
Definition at_end (r : string) : bool :=
  match skip_ws r with "" => true | String c _ => (code c =? 0)%N end.

Definition parse_opt (s : string) : option json :=
  let s' := skip_bom s in
  match pval (fuel_for s') s' with
  | Some (j, r) => if at_end r then Some j else None
  | None => None
  end.

Definition parse_error : exn := Std "parse_error.101".
(** [nl::json::parse(begin, end)]. *)
Definition parse (s : string) : res json :=
  match parse_opt s with Some j => Ok j | None => Exn parse_error end.

(** All strings and keys of a value are valid UTF-8. *)
Fixpoint jvalid (j : json) : bool :=
  match j with
  | JStr s => is_utf8_valid s
  | JArr l => (fix go l := match l with [] => true | x :: l' => jvalid x && go l' end) l
  | JObj m => (fix go m := match m with [] => true | (k, x) :: m' => is_utf8_valid k && jvalid x && go m' end) m
  | _ => true
  end.
(** All floats are finite. *)
Fixpoint jfinite (j : json) : bool :=
  match j with
  | JFloat l => float_lit l
  | JArr l => (fix go l := match l with [] => true | x :: l' => jfinite x && go l' end) l
  | JObj m => (fix go m := match m with [] => true | (_, x) :: m' => jfinite x && go m' end) m
  | _ => true
  end.
