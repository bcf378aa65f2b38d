(** Model of the generation of Paillier keys. *)
From Verif Require Export PyBase PaillierModel.
Local Open Scope Z_scope.

Section Keygen.
  (** gmpy2.next_prime, given as a function; the theorems say what is assumed of it. *)
  Context (next_prime : Z -> Z).
  (** gmpy_math.py:49-55 getprimeover; [r] is the result of getrandbits(n). *)
  Definition getprimeover (n r : Z) : Z := next_prime (Z.setbit r (n - 1)).
  (** int.bit_length *)
  Definition bit_length (n : Z) : Z := if n =? 0 then 0 else Z.log2 (Z.abs n) + 1.
  (** fate_paillier.py:33-43, the two loops. They are one recursion over the results of getrandbits, in the order in which they are
      drawn: [p] is None at the start of the outer loop and Some p in the inner loop. If the given results do not suffice the loops are
      still running, which is the result OutOfFuel. *)
  Fixpoint draw_loop (n_length : Z) (p : option Z) (draws : list Z) : res (Z * Z) :=
    match draws with
    | [] => Err OutOfFuel
    | r :: draws' =>
        let x := getprimeover (n_length / 2) r in
        match p with
        | None => draw_loop n_length (Some x) draws'
        | Some p' =>
            if x =? p' then draw_loop n_length (Some p') draws'
            else if bit_length (p' * x) =? n_length then Ok (p', x) else draw_loop n_length None draws'
        end
    end.
  (** fate_paillier.py:29-46 generate_keypair for lengths from 2 on; a public key is its n. *)
  Definition generate_keypair (n_length : Z) (draws : list Z) : res (Z * privkey) :=
    '(p, q) ← draw_loop n_length None draws;
    sk ← mk_privkey (p * q) p q;
    Ok (p * q, sk).
End Keygen.
