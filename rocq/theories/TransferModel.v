(** Model of federation/transfer_inst.py: message framing over a TCP byte stream and the guest's routing. *)
From Verif Require Import PyBase.
From Coq Require Import ZArith.
Open Scope Z_scope.

(** A byte is an integer 0..255; pickle is not modelled: a message is its serialised byte string. *)
Notation bytes := (list Z).

(** [str(n)] for n >= 0, most significant digit first, as ASCII codes. Used by the f-string of
    federation/transfer_inst.py:19. Fuel = number of binary digits, always enough. *)
Fixpoint digits_aux (fuel : nat) (n : Z) : bytes :=
  match fuel with
  | O => []
  | S fuel' => if n <? 10 then [48 + n] else digits_aux fuel' (n / 10) ++ [48 + n mod 10]
  end.
Definition digits (n : Z) : bytes := digits_aux (S (Z.to_nat (Z.log2 n))) n.

(** federation/transfer_inst.py:19 — [bytes(f"{length:<16}", 'utf-8')]: left-justified in 16 columns,
    never truncated. *)
Definition header (len : Z) : bytes :=
  digits len ++ replicate (16 - length (digits len)) 32.

(** federation/transfer_inst.py:10-21 — the bytes one [send_data] call puts on the stream
    ([sendall] sends everything). *)
Definition frame (m : bytes) : bytes := header (Z.of_nat (length m)) ++ m.

(** Python's [int(b)] on a bytes object, used at federation/transfer_inst.py:37: strip ASCII whitespace,
    optional sign, decimal digits with single underscores between digits; None = ValueError. *)
Definition is_ws (b : Z) : bool := (b =? 32) || ((9 <=? b) && (b <=? 13)).
Fixpoint lstrip (l : bytes) : bytes :=
  match l with [] => [] | b :: l' => if is_ws b then lstrip l' else l end.
Definition strip (l : bytes) : bytes := reverse (lstrip (reverse (lstrip l))).
Definition is_digit (b : Z) : bool := (48 <=? b) && (b <=? 57).
Fixpoint parse_digits (acc : Z) (last_digit : bool) (l : bytes) : option Z :=
  match l with
  | [] => if last_digit then Some acc else None
  | b :: l' =>
      if is_digit b then parse_digits (10 * acc + (b - 48)) true l'
      else if (b =? 95) && last_digit then parse_digits acc false l'
      else None
  end.
Definition parse_int (l : bytes) : option Z :=
  match strip l with
  | 43 :: l' => parse_digits 0 false l'
  | 45 :: l' => option_map Z.opp (parse_digits 0 false l')
  | l' => parse_digits 0 false l'
  end.

(** The receiving end of a connection. [sk_in] is everything the peer will ever send from position
    [sk_pos] on until it closes. *)
Record sock := Sock { sk_pos : nat; sk_in : bytes }.

(** The transport's choice of short reads: [avail pos] is the number of contiguous bytes the kernel holds
    when recv is called at stream position [pos]. Every schedule of short reads is such a function, since
    two successful reads never start at the same position. *)
Definition transport := nat -> nat.

(** [cs.recv(n)], n > 0 (federation/transfer_inst.py:36,42): at least one byte unless the stream has ended
    (then b''), at most n. Blocking until data arrives is implicit in [sk_in]. *)
Definition recv (avail : transport) (n : nat) (s : sock) : bytes * sock :=
  let k := Nat.min n (Nat.max 1 (avail (sk_pos s))) in
  let out := take k (sk_in s) in
  (out, Sock (sk_pos s + length out) (drop k (sk_in s))).

(** federation/transfer_inst.py:41-44 — the payload loop; [fuel] bounds the number of iterations and
    [OutOfFuel] means "still looping". *)
Fixpoint recv_loop (fuel : nat) (avail : transport) (len : Z) (full_msg : bytes) (s : sock)
  : res (bytes * sock) :=
  if Z.of_nat (length full_msg) <? len then
    match fuel with
    | O => Err OutOfFuel
    | S fuel' =>
        let '(more, s') := recv avail (Z.to_nat (len - Z.of_nat (length full_msg))) s in
        recv_loop fuel' avail len (full_msg ++ more) s'
    end
  else Ok (full_msg, s).

(** federation/transfer_inst.py:24-47 — [recv_data]: ONE recv(16) for the header, [int(msg[:16])], then the
    payload loop. [pickle.loads] is not modelled. *)
Definition recv_data (fuel : nat) (avail : transport) (s : sock) : res (bytes * sock) :=
  let '(msg, s1) := recv avail 16 s in
  match parse_int (take 16 msg) with
  | None => Err ValueError
  | Some len => recv_loop fuel avail len [] s1
  end.

(** Successive [recv_data] calls on one connection. *)
Fixpoint recv_many (fuel : nat) (avail : transport) (n : nat) (s : sock) : res (list bytes * sock) :=
  match n with
  | O => Ok ([], s)
  | S n' => match recv_data fuel avail s with
            | Err e => Err e
            | Ok (m, s1) => match recv_many fuel avail n' s1 with
                            | Err e => Err e
                            | Ok (ms, s2) => Ok (m :: ms, s2)
                            end
            end
  end.

(** federation/transfer_inst.py:66-87 — [send_data_to_hosts(data, index)]. The guest's connections are the
    list of bytes written to each so far, in accept order (lines 62-64). *)
Definition send_data_to_hosts (m : bytes) (index : Z) (outs : list bytes) : res (list bytes) :=
  if index =? -1 then Ok (map (fun o => o ++ frame m) outs)
  else if (index <? Z.of_nat (length outs)) && (0 <=? index)
       then Ok (alter (fun o => o ++ frame m) (Z.to_nat index) outs)
       else Err ValueError.

(** What [recv_data_from_hosts] returns: one message, or a list of messages when index is -1. *)
Inductive recv_result := One (m : bytes) | Many (ms : list bytes).

(** federation/transfer_inst.py:105-110 — the loop over all connections. *)
Fixpoint recv_each (fuel : nat) (conns : list (transport * sock)) : res (list bytes * list (transport * sock)) :=
  match conns with
  | [] => Ok ([], [])
  | (av, s) :: conns' =>
      match recv_data fuel av s with
      | Err e => Err e
      | Ok (m, s') => match recv_each fuel conns' with
                      | Err e => Err e
                      | Ok (ms, cs) => Ok (m :: ms, (av, s') :: cs)
                      end
      end
  end.

(** federation/transfer_inst.py:89-116 — [recv_data_from_hosts(index)]. *)
Definition recv_data_from_hosts (fuel : nat) (index : Z) (conns : list (transport * sock))
  : res (recv_result * list (transport * sock)) :=
  if index =? -1 then
    match recv_each fuel conns with Ok (ms, cs) => Ok (Many ms, cs) | Err e => Err e end
  else if (index <? Z.of_nat (length conns)) && (0 <=? index) then
    match conns !! Z.to_nat index with
    | None => Err IndexError
    | Some (av, s) =>
        match recv_data fuel av s with
        | Err e => Err e
        | Ok (m, s') => Ok (One m, <[Z.to_nat index := (av, s')]> conns)
        end
    end
  else Err ValueError.
