(** The sockets of SocketModel when processes end: federation/transfer_inst.py never closes a connection itself; the operating
    system closes those of a process that returns, raises or is killed. *)
From Verif Require Export SocketModel.
Local Open Scope nat_scope.

(** The program has returned or raised: guest.py and host.py end then, and their connections are closed. *)
Definition ended {I R} (p : bprog I R) : Prop := match p with BRet _ | BFail _ => True | _ => False end.

(** Steps with closed connections, besides those of [bstep] with whole headers. The peer's bytes that are still on the way can be read.
    - federation/transfer_inst.py:36 recv(16) returns what is left when the peer has ended, less than 16 bytes and perhaps none;
    - federation/transfer_inst.py:19,21 sendall to a closed connection raises (or, if [bstep] allows it, the bytes go nowhere);
    - a recv raises when the peer ended without having read all that was sent to it (the connection is reset).
    The class of the exception is left open. Not covered: a machine that vanishes without closing its connections. *)
Inductive cstep {R T : Type} (cd cu : nat -> nat) : bsys R T -> bsys R T -> Prop :=
| c_step s t : bstep True cd cu s t -> cstep cd cu s t
| c_ghead i k hs p d u : hs !! i = Some (p, d, u) -> ended p -> length u < 16 ->
    cstep cd cu (BSys (BHead i k) hs) (BSys (k u) (<[i := (p, d, [])]> hs))
| c_gwrite i b w k e hs p d u : hs !! i = Some (p, d, u) -> ended p -> cstep cd cu (BSys (BWrite i b w k) hs) (BSys (BFail e) hs)
| c_ghead_reset i k e hs p d u : hs !! i = Some (p, d, u) -> ended p -> d <> [] -> cstep cd cu (BSys (BHead i k) hs) (BSys (BFail e) hs)
| c_gbody_reset i n got k e hs p d u : hs !! i = Some (p, d, u) -> ended p -> d <> [] -> cstep cd cu (BSys (BBody i n got k) hs) (BSys (BFail e) hs)
| c_hhead g j k hs d u : hs !! j = Some (BHead tt k, d, u) -> ended g -> length d < 16 ->
    cstep cd cu (BSys g hs) (BSys g (<[j := (k d, [], u)]> hs))
| c_hwrite g j b w k e hs d u : hs !! j = Some (BWrite tt b w k, d, u) -> ended g -> cstep cd cu (BSys g hs) (BSys g (<[j := (BFail e, d, u)]> hs))
| c_hhead_reset g j k e hs d u : hs !! j = Some (BHead tt k, d, u) -> ended g -> u <> [] -> cstep cd cu (BSys g hs) (BSys g (<[j := (BFail e, d, u)]> hs))
| c_hbody_reset g j n got k e hs d u : hs !! j = Some (BBody tt n got k, d, u) -> ended g -> u <> [] -> cstep cd cu (BSys g hs) (BSys g (<[j := (BFail e, d, u)]> hs)).

(** federation/transfer_inst.py:41-44 — an iteration of the payload loop in which recv returns b'' because the peer has ended. *)
Inductive empty_read {R T : Type} : bsys R T -> bsys R T -> Prop :=
| e_guest i n got k hs p d : hs !! i = Some (p, d, []) -> ended p ->
    empty_read (BSys (BBody i n got k) hs) (BSys (body i (S n - length (@nil Z)) (got ++ []) k) hs)
| e_host g j n got k hs u : hs !! j = Some (BBody tt n got k, [], u) -> ended g ->
    empty_read (BSys g hs) (BSys g (<[j := (body tt (S n - length (@nil Z)) (got ++ []) k, [], u)]> hs)).

(** A party is killed or raises, at any point. *)
Inductive kill {R T : Type} : bsys R T -> bsys R T -> Prop :=
| k_guest g e hs : ~ ended g -> kill (BSys g hs) (BSys (BFail e) hs)
| k_host g j p d u e hs : hs !! j = Some (p, d, u) -> ~ ended p -> kill (BSys g hs) (BSys g (<[j := (BFail e, d, u)]> hs)).
