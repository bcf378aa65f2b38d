(** What may go over the sockets, and how runs on sockets end. *)
From Verif Require Export SocketModel.
From stdpp Require Export relations.
Local Open Scope nat_scope.

(** A message that pickle restores and whose size fits in the header. *)
Definition intact {M} (ser : M -> bytes) (des : bytes -> res M) (m : M) : Prop := des (ser m) = Ok m /\ (Z.of_nat (length (ser m)) < 10 ^ 16)%Z.
(** All messages that are ever sent satisfy [Q]. *)
Definition carries {M R T} (s0 : sys M R T) (Q : M -> Prop) : Prop := forall s i p d u, rtc step s0 s -> s_hosts s !! i = Some (p, d, u) -> Forall Q (d ++ u).
(** The buffers of every connection hold at least a header. *)
Definition roomy (nh : nat) (cd cu : nat -> nat) : Prop := forall i, i < nh -> 16 <= cd i /\ 16 <= cu i.
(** All parties have returned, and no byte is left over. *)
Definition finished {R T} (r : R) (rs : list T) : bsys R T := BSys (BRet r) (map (fun x => (BRet x, [], [])) rs).
(** Every schedule in which the headers are read whole ends there. *)
Definition socket_ends {M R T} (ser : M -> bytes) (des : bytes -> res M) (cd cu : nat -> nat) (s0 : sys M R T) (r : R) (rs : list T) : Prop :=
  exists N, forall q s, nsteps (bstep True cd cu) q (on_sockets ser des s0) s -> q <= N /\ rtc (bstep True cd cu) s (finished r rs).
