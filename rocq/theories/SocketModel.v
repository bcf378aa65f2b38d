(** The parties at the level of sockets: federation/transfer_inst.py below the messages of ProcModel. *)
From Verif Require Export ProcModel TransferModel.
Local Open Scope nat_scope.

(** What a party does with its sockets; [I] names the partners. *)
Inductive bprog (I R : Type) : Type :=
| BRet (r : R)
| BFail (e : exn)
| BWrite (i : I) (b : Z) (w : bytes) (k : bprog I R)                  (* inside sendall, b :: w still to be written *)
| BHead (i : I) (k : bytes -> bprog I R)                              (* recv(16) for the header *)
| BBody (i : I) (n : nat) (got : bytes) (k : bytes -> bprog I R).     (* inside the payload loop, S n bytes to go *)
Arguments BRet {I R}. Arguments BFail {I R}. Arguments BWrite {I R}. Arguments BHead {I R}. Arguments BBody {I R}.

(** federation/transfer_inst.py:19,21 — sendall(w); nothing happens for b''. *)
Definition write {I R} (i : I) (w : bytes) (k : bprog I R) : bprog I R := match w with [] => k | b :: w' => BWrite i b w' k end.
(** federation/transfer_inst.py:41-44 — the loop, with [n] bytes to go and [got] read. *)
Definition body {I R} (i : I) (n : nat) (got : bytes) (k : bytes -> bprog I R) : bprog I R := match n with 0 => k got | S n' => BBody i n' got k end.

Section Wire.
  (** pickle.dumps and pickle.loads *)
  Context {M : Type} (ser : M -> bytes) (des : bytes -> res M).
  (** federation/transfer_inst.py:10-21 send_data: the header and the pickled object in two sendall calls;
      federation/transfer_inst.py:24-47 recv_data: one recv(16), int(), the loop, pickle.loads. *)
  Fixpoint wire {I R} (p : proc I M R) : bprog I R :=
    match p with
    | Ret r => BRet r
    | Fail e => BFail e
    | Send i m k => write i (header (Z.of_nat (length (ser m)))) (write i (ser m) (wire k))
    | Recv i k => BHead i (fun msg =>
        match parse_int (take 16 msg) with
        | None => BFail ValueError
        | Some len => body i (Z.to_nat len) [] (fun full => match des full with Ok m => wire (k m) | Err e => BFail e end)
        end)
    end.
End Wire.

(** The guest and, per host, its program and the bytes on the way to it and from it. *)
Record bsys (R T : Type) : Type := BSys { b_guest : bprog nat R; b_hosts : list (bprog unit T * bytes * bytes) }.
Arguments BSys {R T}. Arguments b_guest {R T}. Arguments b_hosts {R T}.

(** One system call's worth of progress. sendall passes any part of what is left to the kernel as soon as it fits (at most
    [cd i] bytes can be on the way to host i and [cu i] from it; sendall waits when the buffers are full); recv waits for at
    least one byte and returns any part of what has arrived, up to its argument. With [whole] the reads of headers are those
    that return all 16 bytes (C06 is about the others). Closed connections are in CloseModel.v. *)
Inductive bstep {R T : Type} (whole : Prop) (cd cu : nat -> nat) : bsys R T -> bsys R T -> Prop :=
| b_gwrite i b c w w' k hs p d u : hs !! i = Some (p, d, u) -> w = c ++ w' -> length d + S (length c) <= cd i ->
    bstep whole cd cu (BSys (BWrite i b w k) hs) (BSys (write i w' k) (<[i := (p, d ++ b :: c, u)]> hs))
| b_ghead i k c hs p d u : hs !! i = Some (p, d, c ++ u) -> 1 <= length c <= 16 -> (whole -> length c = 16) ->
    bstep whole cd cu (BSys (BHead i k) hs) (BSys (k c) (<[i := (p, d, u)]> hs))
| b_gbody i n got k c hs p d u : hs !! i = Some (p, d, c ++ u) -> 1 <= length c <= S n ->
    bstep whole cd cu (BSys (BBody i n got k) hs) (BSys (body i (S n - length c) (got ++ c) k) (<[i := (p, d, u)]> hs))
| b_hwrite g j b c w w' k hs d u : hs !! j = Some (BWrite tt b w k, d, u) -> w = c ++ w' -> length u + S (length c) <= cu j ->
    bstep whole cd cu (BSys g hs) (BSys g (<[j := (write tt w' k, d, u ++ b :: c)]> hs))
| b_hhead g j k c hs d u : hs !! j = Some (BHead tt k, c ++ d, u) -> 1 <= length c <= 16 -> (whole -> length c = 16) ->
    bstep whole cd cu (BSys g hs) (BSys g (<[j := (k c, d, u)]> hs))
| b_hbody g j n got k c hs d u : hs !! j = Some (BBody tt n got k, c ++ d, u) -> 1 <= length c <= S n ->
    bstep whole cd cu (BSys g hs) (BSys g (<[j := (body tt (S n - length c) (got ++ c) k, d, u)]> hs)).

(** All parties run their programs on fresh connections. *)
Definition on_sockets {M R T} (ser : M -> bytes) (des : bytes -> res M) (s : sys M R T) : bsys R T :=
  BSys (wire ser des (s_guest s)) (map (fun h : proc unit M T * list M * list M => (wire ser des h.1.1, [], [])) (s_hosts s)).
