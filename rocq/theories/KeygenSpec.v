(** What key generation draws. *)
From Verif Require Export KeygenModel PaillierSpec.
Local Open Scope Z_scope.

(** [x] is the least prime above [b]. *)
Definition least_prime_above (b x : Z) : Prop := prime x /\ b < x /\ forall y, prime y -> b < y -> x <= y.
(** The random number with its k-th bit set. *)
Definition with_top (k r : Z) : Z := if r <? 2 ^ (k - 1) then r + 2 ^ (k - 1) else r.
(** The prime that a result of getrandbits(k) leads to. *)
Definition leads_to (k r x : Z) : Prop := least_prime_above (with_top k r) x.
(** Numbers of exactly [len] bits. *)
Definition has_bits (len n : Z) : Prop := 2 ^ (len - 1) <= n < 2 ^ len.
(** One attempt: a draw for p, further draws that lead to p again, and a draw that leads to another prime q. *)
Definition attempt (k : Z) (l : list Z) (p q : Z) : Prop :=
  exists r same r', l = r :: same ++ [r'] /\ leads_to k r p /\ (forall s, s ∈ same -> leads_to k s p) /\ leads_to k r' q /\ p <> q.
(** Draws that consist of attempts whose products do not have the demanded number of bits. *)
Inductive in_vain (len : Z) : list Z -> Prop :=
| vain_nil : in_vain len []
| vain_more l l' p q : attempt (len / 2) l p q -> ~ has_bits len (p * q) -> in_vain len l' -> in_vain len (l ++ l').
(** gmpy2.next_prime is right on the numbers it is asked for, and the draws are numbers of k bits. *)
Definition next_prime_ok (k : Z) (next_prime : Z -> Z) : Prop := forall b, 2 ^ (k - 1) <= b < 2 ^ k -> least_prime_above b (next_prime b).
Definition draws_ok (k : Z) (draws : list Z) : Prop := forall r, r ∈ draws -> 0 <= r < 2 ^ k.
