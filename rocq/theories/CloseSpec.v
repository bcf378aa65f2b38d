(** How runs end when processes end. *)
From Verif Require Export CloseModel SocketSpec.
Local Open Scope nat_scope.

(** Every schedule in which nobody is killed ends with these results. *)
Definition closing_ends {M R T} (ser : M -> bytes) (des : bytes -> res M) (cd cu : nat -> nat) (s0 : sys M R T) (r : R) (rs : list T) : Prop :=
  exists N, forall q s, nsteps (cstep cd cu) q (on_sockets ser des s0) s -> q <= N /\ rtc (cstep cd cu) s (finished r rs) /\ ~ (exists t, empty_read s t).

(** One step of some party, or one party is killed. *)
Definition kstep {R T} (cd cu : nat -> nat) (s t : bsys R T) : Prop := cstep cd cu s t \/ kill s t.
(** A party is in the payload loop of a connection that is closed and has no more bytes. *)
Definition guest_spins {R T} (s : bsys R T) : Prop := exists i n got k p d, b_guest s = BBody i n got k /\ b_hosts s !! i = Some (p, d, []) /\ ended p.
Definition host_spins {R T} (s : bsys R T) (j : nat) : Prop := ended (b_guest s) /\ exists n got k u, b_hosts s !! j = Some (BBody tt n got k, [], u).
(** The guest loops over empty reads, or all parties have ended but for hosts that do so. *)
Definition over {R T} (s : bsys R T) : Prop :=
  guest_spins s \/ ended (b_guest s) /\ forall j p d u, b_hosts s !! j = Some (p, d, u) -> ended p \/ host_spins s j.
(** Every schedule with any number of deaths is finite but for empty reads, and stops only there; if the guest returns, it returns [r]. *)
Definition dies_cleanly {M R T} (ser : M -> bytes) (des : bytes -> res M) (cd cu : nat -> nat) (s0 : sys M R T) (r : R) : Prop :=
  Acc (fun t s => kstep cd cu s t) (on_sockets ser des s0) /\
  forall s, rtc (kstep cd cu) (on_sockets ser des s0) s -> (nf (cstep cd cu) s -> over s) /\ (forall r', b_guest s = BRet r' -> r' = r).
