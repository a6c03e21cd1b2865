(** An object protected by a mutex, used by any number of threads: every function takes a
    [std::lock_guard] for the rest of its body. Instances: [openssl_xauthentication]
    (src/xauthentication.cpp:149-189, [m_hmac_mutex]), [xlogger_console::log_message_impl] and
    [xlogger_file::log_message_impl] (src/xlogger_impl.cpp:196-201, 215-224, [m_mutex] of each logger). *)
From Verif Require Import Base Json JsonText Hex Auth Pretty.

Section Monitor.
  Variable S : Type.      (* the state of the object *)
  Variable R : Type.      (* results *)
  Variable call : Type.   (* calls of functions of the object *)
  (** The rest of a function's body: what it does to the object, one step at a time; other threads
      may run between two steps. A step depends on the state it finds. [CStop]: an exception leaves the
      function. *)
  Inductive code :=
  | CRet (r : R)
  | CStop (e : exn)
  | CStep (f : S -> S) (k : S -> code).
  (** The body under the lock. *)
  Variable body : call -> code.

  Inductive place :=
  | Out                           (* not in a function of the object *)
  | Wait (c : call)               (* in the constructor of the lock_guard *)
  | In (c : call) (p : code).     (* in the body *)
  Record msys := { n_obj : S; n_lock : option nat; n_at : nat -> place }.
  Inductive mlabel :=
  | NCall (i : nat) (c : call)
  | NTake (i : nat) (c : call)                         (* the mutex is locked *)
  | NBack (i : nat) (c : call) (r : R + exn)           (* the mutex is unlocked, the function returns or throws *)
  | NTau (i : nat).
  Definition move (i : nat) (x : place) (f : nat -> place) : nat -> place := fun j => if Nat.eqb j i then x else f j.

  Inductive mstep : msys -> mlabel -> msys -> Prop :=
  | n_call s o f i c : f i = Out ->
      mstep {| n_obj := s; n_lock := o; n_at := f |} (NCall i c) {| n_obj := s; n_lock := o; n_at := move i (Wait c) f |}
  | n_take s f i c : f i = Wait c ->
      mstep {| n_obj := s; n_lock := None; n_at := f |} (NTake i c) {| n_obj := s; n_lock := Some i; n_at := move i (In c (body c)) f |}
  | n_step s o f i c g k : f i = In c (CStep g k) ->
      mstep {| n_obj := s; n_lock := o; n_at := f |} (NTau i) {| n_obj := g s; n_lock := o; n_at := move i (In c (k s)) f |}
  | n_ret s o f i c r : f i = In c (CRet r) ->
      mstep {| n_obj := s; n_lock := o; n_at := f |} (NBack i c (inl r)) {| n_obj := s; n_lock := None; n_at := move i Out f |}
  | n_stop s o f i c e : f i = In c (CStop e) ->
      mstep {| n_obj := s; n_lock := o; n_at := f |} (NBack i c (inr e)) {| n_obj := s; n_lock := None; n_at := move i Out f |}.
  Inductive mrun : msys -> list mlabel -> msys -> Prop :=
  | nr_nil s : mrun s [] s
  | nr_snoc s ls s1 l s2 : mrun s ls s1 -> mstep s1 l s2 -> mrun s (ls ++ [l]) s2.
  Definition m_init (s : S) : msys := {| n_obj := s; n_lock := None; n_at := fun _ => Out |}.

  (** One call alone. *)
  Fixpoint alone (p : code) (s : S) : S * (R + exn) :=
    match p with
    | CRet r => (s, inl r)
    | CStop e => (s, inr e)
    | CStep f k => alone (k s) (f s)
    end.
End Monitor.
Arguments CRet {S R} r. Arguments CStop {S R} e. Arguments CStep {S R} f k.
Arguments Out {S R call}. Arguments Wait {S R call} c. Arguments In {S R call} c p.
Arguments n_obj {S R call} m. Arguments n_lock {S R call} m. Arguments n_at {S R call} m.
Arguments NCall {R call} i c. Arguments NTake {R call} i c. Arguments NBack {R call} i c r. Arguments NTau {R call} i.

(** ** The HMAC context *)
(** [HMAC_CTX]: initialised, with what was fed to it; or not in use ([HMAC_CTX_new], after
    [HMAC_Final]). *)
Inductive hctx := Fresh | Fed (scheme key data : string) | Spoilt.
(** Feeding a context that is not initialised is an error: [Spoilt]. *)
Definition h_init (scheme key : string) (_ : hctx) : hctx := Fed scheme key "".
Definition h_update (x : string) (h : hctx) : hctx :=
  match h with Fed s k d => Fed s k (d +++ x) | _ => Spoilt end.
(** What [HMAC_Final] writes; the context has to be initialised again afterwards. *)
Definition h_final (c : crypto) (h : hctx) : res string :=
  match h with Fed s k d => Ok (hmac c s k d) | _ => UB "HMAC_Final on a context that is not initialised" end.
Inductive acall := Sign (h p m t : string) | Verify (sig h p m t : string).
Inductive aresult := Signature (x : res string) | Verdict (b : res bool).
Section Hmac.
  Variable (C : crypto) (scheme key : string).
  (** src/xauthentication.cpp:155-163 and 176-184. *)
  Definition h_digest (h p m t : string) (k : res string -> code hctx aresult) : code hctx aresult :=
    CStep (h_init scheme key) (fun _ =>
    CStep (h_update h) (fun _ => CStep (h_update p) (fun _ => CStep (h_update m) (fun _ => CStep (h_update t) (fun _ =>
    CStep (fun _ => Spoilt) (fun ctx => k (h_final C ctx))))))).
  (** 165-166 and 186-188. *)
  Definition auth_body (c : acall) : code hctx aresult :=
    match c with
    | Sign h p m t => h_digest h p m t (fun d => CRet (Signature (let* d := d in Ok (hex_string d))))
    | Verify sig h p m t => h_digest h p m t (fun d => CRet (Verdict (
        let* d := d in
        let hex_sig := hex_string d in
        if slen sig <? slen hex_sig then UB "CRYPTO_memcmp reads past the signature frame"
        else Ok (String.eqb (stake (slen hex_sig) sig) hex_sig))))
    end.
End Hmac.

(** ** The text written by a logger *)
(** The object is the text in the file (opened to append, line 222) or inserted into [std::cout]. A text
    gets there in pieces; [cuts] are the lengths of the pieces, the last one takes the rest. *)
Fixpoint chop (cuts : list nat) (t : string) : list string :=
  match cuts with
  | [] => [t]
  | n :: cuts => stake n t :: chop cuts (sdrop n t)
  end.
Fixpoint l_write {R} (ps : list string) (k : code string R) : code string R :=
  match ps with
  | [] => k
  | p :: ps => CStep (fun out => out +++ p) (fun _ => l_write ps k)
  end.
Record lcall := { l_info : string; l_message : json; l_cuts : list nat; l_cuts2 : list nat }.
(** Lines 218-220: the record of a file. *)
Definition l_log (c : lcall) : json := jobj [("info", JStr (l_info c)); ("message", l_message c)].
(** Lines 221-223: the text is made before anything is written; std::endl is a line break. *)
Definition file_body (c : lcall) : code string unit :=
  match pretty (l_log c) with
  | Ok t => l_write (chop (l_cuts c) (t +++ newline)) (CRet tt)
  | Exn e => CStop e
  | UB _ => CRet tt
  end.
(** Lines 199-200. C++17 inserts the info and the line break before the dump is evaluated ([early]);
    before C++17 the order is up to the compiler. *)
Definition console_body (early : bool) (c : lcall) : code string unit :=
  let first := l_write (chop (l_cuts c) (l_info c +++ newline)) in
  let rest := match pretty (l_message c) with
              | Ok t => if early then l_write (chop (l_cuts2 c) (t +++ newline)) (CRet tt) else first (l_write (chop (l_cuts2 c) (t +++ newline)) (CRet tt))
              | Exn e => CStop e
              | UB _ => CRet tt
              end in
  if early then first rest else rest.
