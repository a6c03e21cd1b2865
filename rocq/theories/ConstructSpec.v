(** What the construction of a kernel promises: C96. *)
From Verif Require Import Base Auth Host Construct.

(** ZeroMQ on tcp: a socket bound to tcp://ip:port reports tcp://address:number; the number is the port asked for, unless it was
    0 or "*". *)
Definition no_colon (s : string) : Prop := forall a b, s <> a +++ ":" +++ b.
Definition tcp_binds (H : host) : Prop :=
  forall bound ip port r, h_bind H bound ("tcp://" +++ ip +++ ":" +++ port) = Some r -> no_colon port ->
  exists address number, r = "tcp://" +++ address +++ ":" +++ number /\ no_colon number /\ number <> "" /\
    (forall n, (1 <= n <= 65535)%Z -> port = dec_of_Z n -> number = port).
(** No two sockets are bound to the same end point. *)
Definition exclusive (H : host) : Prop := forall bound e r, h_bind H bound e = Some r -> ~ In r bound.

(** A channel whose socket is bound can be reached with the address of the machine and the port in the configuration; a port that
    was asked for was taken. *)
Definition reachable (asked got : string) (socket : option string) : Prop :=
  match socket with
  | Some e => exists address, e = "tcp://" +++ address +++ ":" +++ got /\ got <> "" /\
      forall n, (1 <= n <= 65535)%Z -> asked = dec_of_Z n -> got = asked
  | None => False
  end.
(** A hundred ports drawn one after the other were all refused. *)
Definition gave_up (H : host) (transport ip : string) : Prop :=
  exists bound from, forall i, i < 100 -> h_bind H bound (get_end_point transport ip (dec_of_Z (h_draw H (from + i)))) = None.
