(** Vocabulary: infinite executions of the default server and fairness. *)
From Verif Require Import Base Json Message Comm Tree Kernel Server ServerSpec.

Section Executions.
  Context {St Ac La : Type} (acts : Ac -> St -> La -> St -> Prop).
  Variable (sigma : nat -> St) (lab : nat -> option (Ac * La)).
  (** At each moment some actor makes a step, or nothing happens. *)
  Definition executes : Prop := forall n,
    match lab n with
    | Some (a, l) => acts a (sigma n) l (sigma (S n))
    | None => sigma (S n) = sigma n
    end.
  Definition able (a : Ac) (s : St) : Prop := exists l s', acts a s l s'.
  (** [a] does not stay able to move without moving. *)
  Definition just (a : Ac) : Prop := forall n, exists m, n <= m /\ (~ able a (sigma m) \/ exists l, lab m = Some (a, l)).
  (** What was observed before moment [n]. *)
  Fixpoint observed (n : nat) : list La :=
    match n with
    | 0 => []
    | S n => (observed n ++ match lab n with Some (_, l) => [l] | None => [] end)%list
    end.
End Executions.

(** The threads of the default server, and the peers. *)
Inductive actor := AMain | APublisher | AHeartbeat | AWorld.
Definition from_outside (l : label) : Prop :=
  match l with Arrive _ _ | HbArrive _ | StdinArrive => True | _ => False end.
Section Actors.
  Context {U : Type} (listener : channel -> frames -> kprog U unit).
  Definition acts (a : actor) (s : dsys U) (l : label) (s' : dsys U) : Prop :=
    match a with
    | AMain => main_step listener s l s'
    | APublisher => l = Tau /\ alive (d_pc s) /\ exists f, fnext (m_pub (d_mem s)) = Some f /\ s' = {| d_pc := d_pc s; d_mem := set_pub f (d_mem s) |}
    | AHeartbeat => l = Tau /\ alive (d_pc s) /\ exists f, fnext (m_hb (d_mem s)) = Some f /\ s' = {| d_pc := d_pc s; d_mem := set_hb f (d_mem s) |}
    | AWorld => from_outside l /\ dstep listener s l s'
    end.
End Actors.
(** The main thread waits for a message on the stdin socket. *)
Definition waits_input {U} (s : dsys U) : Prop :=
  match d_pc s with
  | MInControl (Do KStdin _) _ | MInShell (Do KStdin _) => m_stdin (d_mem s) <= k_stdin (m_k (d_mem s))
  | _ => False
  end.
Definition controlling {U} (pc : mpc U) : Prop := match pc with MInControl _ _ => True | _ => False end.
(** The process has exited, its threads having finished. *)
Definition ended {U} (s : dsys U) : Prop :=
  d_pc s = MExit /\ f_pc (m_pub (d_mem s)) = FDone /\ f_pc (m_hb (d_mem s)) = FDone.
(** The main thread is in [stop_channels], or the process is over. *)
Definition closing {U} (pc : mpc U) : Prop :=
  match pc with MStop1 | MWait1 | MStop2 | MWait2 | MExit | MCrash => True | _ => False end.
(** Messages taken from a socket. *)
Definition taken_from (c : channel) (ls : list label) : list frames :=
  match c with CONTROL => control_taken ls | SHELL => shell_taken ls end.
