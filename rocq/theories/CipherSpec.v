(** Expressions over affine ciphertexts and the integers they stand for. *)
From Verif Require Export CipherModel.
Local Open Scope Z_scope.

(** Expressions built from int 0, encrypted numbers, +, - and multiplication by an int on either side. *)
Inductive aexpr := EZero | ELeaf (x : pynum) | EAdd (a b : aexpr) | ESub (a b : aexpr) | EMul (k : Z) (a : aexpr) | EMulR (a : aexpr) (k : Z).

Fixpoint aeval (k : akey) (e : aexpr) : res acell :=
  match e with
  | EZero => Ok (AInt 0)
  | ELeaf x => c ← aff_encrypt k x; Ok (ACipher c)
  | EAdd a b => x ← aeval k a; y ← aeval k b; aff_add x y
  | ESub a b => x ← aeval k a; y ← aeval k b; aff_sub x y
  | EMul z a => x ← aeval k a; aff_mul (AInt z) x
  | EMulR a z => x ← aeval k a; aff_mul x (AInt z)
  end.

(** The same expression on integers, [w] giving the encoded plaintext of a leaf. *)
Inductive aval (w : pynum -> Z -> Prop) : aexpr -> Z -> Prop :=
| av_zero : aval w EZero 0
| av_leaf x z : w x z -> aval w (ELeaf x) z
| av_add a b u v : aval w a u -> aval w b v -> aval w (EAdd a b) (u + v)
| av_sub a b u v : aval w a u -> aval w b v -> aval w (ESub a b) (u - v)
| av_mul k a u : aval w a u -> aval w (EMul k a) (k * u)
| av_mulr k a u : aval w a u -> aval w (EMulR a k) (k * u).

(** The encoding of a number at precision 2^100: 2^100 * x truncated towards zero. *)
Definition enc100 (x : pynum) (z : Z) : Prop :=
  let v := (zq (2 ^ 100) * FixedPointModel.num x)%Qc in
  (qabs (zq z) <= qabs v)%Qc /\ (qabs (v - zq z) < zq 1)%Qc /\ (zq 0 <= zq z * v)%Qc.

(** Leaves that can be encoded at precision 2^100: ints, and doubles below 2^924. *)
Fixpoint leaves_ok (e : aexpr) : Prop :=
  match e with
  | EZero => True
  | ELeaf (PyInt _) => True
  | ELeaf (PyFloat q) => (exists c t, Z.abs c < 2 ^ 53 /\ q = (zq c * p2 t)%Qc) /\ (qabs q < p2 924)%Qc
  | EAdd a b | ESub a b => leaves_ok a /\ leaves_ok b
  | EMul _ a | EMulR a _ => leaves_ok a
  end.
