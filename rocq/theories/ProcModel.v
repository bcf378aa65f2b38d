(** Parties that exchange messages: the guest talks to n hosts over one reliable FIFO channel per direction and host
    (federation/transfer_inst.py; P_Transfer proves that a channel delivers the sent messages in order). *)
From Verif Require Export PyBase.
Local Open Scope nat_scope.

(** A party is a program over blocking sends and receives; [I] names its partners. [Fail] is a raised exception. *)
Inductive proc (I M R : Type) : Type :=
| Ret (r : R)
| Fail (e : exn)
| Send (i : I) (m : M) (k : proc I M R)
| Recv (i : I) (k : M -> proc I M R).
Arguments Ret {I M R}. Arguments Fail {I M R}. Arguments Send {I M R}. Arguments Recv {I M R}.

(** The guest and, per host, its program and the messages in flight to it and from it. *)
Record sys (M R S : Type) : Type := Sys { s_guest : proc nat M R; s_hosts : list (proc unit M S * list M * list M) }.
Arguments Sys {M R S}. Arguments s_guest {M R S}. Arguments s_hosts {M R S}.

(** One step of some party. A send never blocks (SocketModel has socket buffers of limited size); a receive
    waits for the next message. *)
Inductive step {M R S : Type} : sys M R S -> sys M R S -> Prop :=
| step_gsend i m k hs p d u : hs !! i = Some (p, d, u) ->
    step (Sys (Send i m k) hs) (Sys k (<[i := (p, d ++ [m], u)]> hs))
| step_grecv i k hs p d m u : hs !! i = Some (p, d, m :: u) ->
    step (Sys (Recv i k) hs) (Sys (k m) (<[i := (p, d, u)]> hs))
| step_hsend g j m k hs d u : hs !! j = Some (Send tt m k, d, u) ->
    step (Sys g hs) (Sys g (<[j := (k, d, u ++ [m])]> hs))
| step_hrecv g j k hs m d u : hs !! j = Some (Recv tt k, m :: d, u) ->
    step (Sys g hs) (Sys g (<[j := (k m, d, u)]> hs)).

(** Program fragments in continuation-passing style. *)
Definition cps (I M R A : Type) : Type := (A -> proc I M R) -> proc I M R.
Definition cret {I M R A} (a : A) : cps I M R A := fun c => c a.
Definition cbind {I M R A B} (m : cps I M R A) (f : A -> cps I M R B) : cps I M R B := fun c => m (fun a => f a c).
(** A local computation that may raise. *)
Definition clift {I M R A} (r : res A) : cps I M R A := fun c => match r with Ok a => c a | Err e => Fail e end.
Definition csend {I M R} (i : I) (m : M) : cps I M R unit := fun c => Send i m (c tt).
Definition crecv {I M R} (i : I) : cps I M R M := fun c => Recv i c.
(** [for x in l: acc = f(acc, x)] *)
Fixpoint cfold {I M R A B} (f : A -> B -> cps I M R A) (acc : A) (l : list B) : cps I M R A :=
  match l with [] => cret acc | x :: l' => cbind (f acc x) (fun acc' => cfold f acc' l') end.

Declare Scope cps_scope.
Delimit Scope cps_scope with cps.
Notation "x <- m ; f" := (cbind m (fun x => f)) (at level 20, m at level 100, f at level 200, right associativity) : cps_scope.
Notation "m ;; f" := (cbind m (fun _ => f)) (at level 100, f at level 200, right associativity) : cps_scope.

Section Hosts.
  Context {M R : Type} (n : nat).
  (** federation/transfer_inst.py:66-87 send_data_to_hosts(data, -1): to every host in order. *)
  Definition bcast (m : M) : cps nat M R unit := cfold (fun _ i => csend i m) tt (seq 0 n).
  (** federation/transfer_inst.py:89-116 recv_data_from_hosts(-1): from every host in order. *)
  Definition gather : cps nat M R (list M) :=
    cfold (fun acc i => (m <- crecv i; cret (acc ++ [m]))%cps) [] (seq 0 n).
End Hosts.
