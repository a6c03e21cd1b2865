(** The history manager: src/xhistory_manager.cpp and src/xin_memory_history_manager.cpp. *)
From Verif Require Import Base Json JsonText.

(** [xin_memory_history_manager::entry], src/xin_memory_history_manager.hpp:28:
    session, line number, input, output. *)
Record entry := { h_session : string; h_line : string; h_input : string; h_output : string }.
Definition history := list entry.

(** [store_inputs_impl], src/xin_memory_history_manager.cpp:35-41. *)
Definition store_inputs (session line_num : Z) (input output : string) (h : history) : history :=
  (h ++ [{| h_session := dec_of_Z session; h_line := dec_of_Z line_num; h_input := input; h_output := output |}])%list.

(** JSON of an entry ([std::array<std::string, 4>]) and of a short entry
    ([make_short_entry], src/xin_memory_history_manager.cpp:43-47). *)
Definition full_entry (e : entry) : list string := [h_session e; h_line e; h_input e; h_output e].
Definition make_short_entry (e : entry) : list string := [h_session e; h_line e; h_input e].
Definition row (output : bool) (e : entry) : list string := if output then full_entry e else make_short_entry e.
Definition json_rows (l : list (list string)) : json := JArr (List.map (fun r => JArr (List.map JStr r)) l).
Definition reply_ok (l : list (list string)) : json := jobj [("history", json_rows l); ("status", JStr "ok")].

(** [get_tail_impl], src/xin_memory_history_manager.cpp:49-76: [count] steps of a reverse
    iterator, each element inserted at the front. [std::next] by a negative count leaves the list.
    Simplification: the size of the list is not truncated to [int]. *)
Definition get_tail (n : Z) (raw output : bool) (h : history) : res json :=
  let count := Z.min n (Z.of_nat (List.length h)) in
  if (count <? 0)%Z then UB "std::next by a negative count"
  else Ok (reply_ok (fold_left (fun acc e => row output e :: acc) (firstn (Z.to_nat count) (rev h)) [])).

(** [get_range_impl], src/xin_memory_history_manager.cpp:78-118. The second assignment to
    "ename" overwrites the first. *)
Definition range_error : json :=
  jobj [("status", JStr "error"); ("ename", JStr "history_request_error");
        ("ename", JStr "get_range: start is too high given stop or current history")].
Definition get_range (session start stop : Z) (raw output : bool) (h : history) : res json :=
  let hist_size := Z.of_nat (List.length h) in
  if (start >? stop)%Z || (start >? hist_size)%Z then Ok range_error
  else
    let count := (Z.min stop hist_size - start)%Z in
    if (start <? 0)%Z then UB "std::next by a negative count"
    else Ok (reply_ok (List.map (row output) (firstn (Z.to_nat count) (skipn (Z.to_nat start) h)))).

(** ** Search *)
(** Members of the bracket expression of [special_chars], src/xin_memory_history_manager.cpp:160;
    [\s] are the six white-space characters of the C locale. *)
Definition is_space (c : ascii) : bool := ((9 <=? code c) && (code c <=? 13) || (code c =? 32))%N.
Definition is_special (c : ascii) : bool :=
  existsb (Ascii.eqb c) ["-"; "["; "]"; "{"; "}"; "("; ")"; "+"; "."; ","; "^"; "$"; "|"; "#"]%char || is_space c.

(** [std::regex_replace] of single characters. *)
Fixpoint replace_chars (f : ascii -> option string) (s : string) : string :=
  match s with
  | "" => ""
  | String c s' => match f c with Some r => r | None => String c "" end +++ replace_chars f s'
  end.
(** src/xin_memory_history_manager.cpp:160-164. *)
Definition sanitize : string -> string :=
  replace_chars (fun c => if is_special c then Some (String "\" (String c "")) else None).
Definition regex_of_glob (pattern : string) : string :=
  replace_chars (fun c => if Ascii.eqb c "*" then Some ".*" else None)
    (replace_chars (fun c => if Ascii.eqb c "?" then Some "." else None) (sanitize pattern)).

(** The fragment of [std::regex] (ECMAScript) needed: literal characters, escaped
    non-alphanumeric characters, [.], and [*] after an atom. *)
Inductive atom := ALit (c : ascii) | AAny.
Definition regex := list (atom * bool).  (* atom, starred *)
Inductive compiled := RxOk (r : regex) | RxError | RxOther.

Definition is_alnum (c : ascii) : bool :=
  ((48 <=? code c) && (code c <=? 57) || (65 <=? code c) && (code c <=? 90) || (97 <=? code c) && (code c <=? 122))%N.
(** ECMAScript SyntaxCharacter other than [.], [\\] and [*]. *)
Definition rx_syntax (c : ascii) : bool :=
  existsb (Ascii.eqb c) ["^"; "$"; "+"; "?"; "("; ")"; "["; "]"; "{"; "}"; "|"; "*"]%char.

(** Add an atom in front, absorbing a following star. *)
Definition rx_cons (a : atom) (star : bool) (r : compiled) : compiled :=
  match r with RxOk l => RxOk ((a, star) :: l) | x => x end.
Fixpoint rx_compile (s : string) : compiled :=
  match s with
  | "" => RxOk []
  | String c s1 =>
      if Ascii.eqb c "\" then
        match s1 with
        | "" => RxError   (* error_escape *)
        | String d s2 =>
            if is_alnum d || Ascii.eqb d "_" then RxOther
            else match s2 with
                 | String e s3 => if Ascii.eqb e "*" then rx_cons (ALit d) true (rx_compile s3)
                                  else rx_cons (ALit d) false (rx_compile s2)
                 | "" => rx_cons (ALit d) false (rx_compile s2)
                 end
        end
      else if rx_syntax c then RxOther
      else
        let a := if Ascii.eqb c "." then AAny else ALit c in
        match s1 with
        | String e s2 => if Ascii.eqb e "*" then rx_cons a true (rx_compile s2) else rx_cons a false (rx_compile s1)
        | "" => rx_cons a false (rx_compile s1)
        end
  end.

(** Matching: [.] is any character except line terminators (narrow characters: LF, CR). *)
Definition line_char (c : ascii) : bool := negb ((code c =? 10) || (code c =? 13))%N.
Definition atom_match (a : atom) (c : ascii) : bool :=
  match a with ALit d => Ascii.eqb d c | AAny => line_char c end.
(** [r] matches a prefix of [s]. *)
Fixpoint rx_prefix (r : regex) (s : string) : bool :=
  match r with
  | [] => true
  | (a, false) :: r' => match s with String c s' => atom_match a c && rx_prefix r' s' | "" => false end
  | (a, true) :: r' =>
      (fix star (s : string) : bool :=
         rx_prefix r' s || match s with String c s' => atom_match a c && star s' | "" => false end) s
  end.
(** [std::regex_search]: some suffix has a matching prefix. *)
Fixpoint rx_search (r : regex) (s : string) : bool :=
  rx_prefix r s || match s with "" => false | String _ s' => rx_search r s' end.

(** [c_str()] as a C string: up to the first NUL. *)
Fixpoint cstr (s : string) : string :=
  match s with "" => "" | String c s' => if (code c =? 0)%N then "" else String c (cstr s') end.

(** Patterns containing a backslash may compile to regular expressions outside the fragment:
    [other] stands for the library on those. *)
Definition regex_lib := string -> res (string -> bool).
Definition regex_error : exn := Std "regex_error".
Definition compile_regex (other : regex_lib) (p : string) : res (string -> bool) :=
  match rx_compile p with
  | RxOk r => Ok (rx_search r)
  | RxError => Exn regex_error
  | RxOther => other p
  end.

(** [std::unique] followed by [erase]. *)
Fixpoint slist_eqb (a b : list string) : bool :=
  match a, b with
  | [], [] => true
  | x :: a', y :: b' => String.eqb x y && slist_eqb a' b'
  | _, _ => false
  end.
Fixpoint unique_from (x : list string) (l : list (list string)) : list (list string) :=
  match l with
  | [] => []
  | y :: l' => if slist_eqb x y then unique_from x l' else y :: unique_from y l'
  end.
Definition unique (l : list (list string)) : list (list string) :=
  match l with [] => [] | x :: l' => x :: unique_from x l' end.

(** [clean_history], src/xin_memory_history_manager.cpp:135-149. *)
Definition clean_history (n : Z) (uniq : bool) (l : list (list string)) : res (list (list string)) :=
  let l := if uniq then unique l else l in
  let nb_erase := (Z.of_nat (List.length l) - n)%Z in
  if (nb_erase >? 0)%Z then
    if (nb_erase >? Z.of_nat (List.length l))%Z then UB "std::next past the end"
    else Ok (skipn (Z.to_nat nb_erase) l)
  else Ok l.

(** [search_impl], src/xin_memory_history_manager.cpp:151-192. *)
Definition search (other : regex_lib) (pattern : string) (raw output : bool) (n : Z) (uniq : bool) (h : history) : res json :=
  let* rx := compile_regex other (regex_of_glob pattern) in
  let matches := List.map (row output) (filter (fun e => rx (cstr (h_input e))) h) in
  let* l := clean_history n uniq matches in
  Ok (reply_ok l).

(** [process_request], src/xhistory_manager.cpp:39-77. *)
Definition process_request (other : regex_lib) (content : json) (h : history) : res json :=
  let* hist_access_type := value_string "hist_access_type" "tail" content in
  if String.eqb hist_access_type "tail" then
    let* n := value_int "n" 10%Z content in
    let* raw := value_bool "raw" true content in
    let* output := value_bool "output" false content in
    get_tail n raw output h
  else if String.eqb hist_access_type "search" then
    let* pattern := value_string "pattern" "*" content in
    let* raw := value_bool "raw" true content in
    let* output := value_bool "output" false content in
    let* n := value_int "n" 10%Z content in
    let* uniq := value_bool "unique" false content in
    search other pattern raw output n uniq h
  else if String.eqb hist_access_type "range" then
    let* session := value_int "session" 0%Z content in
    let* start := value_int "start" 1%Z content in
    let* stop := value_int "stop" 10%Z content in
    let* raw := value_bool "raw" true content in
    let* output := value_bool "output" false content in
    get_range session start stop raw output h
  else Ok JNull.
