(** What it means for a ciphertext to hold a number. *)
From Verif Require Export PyBase QcBase FixedPointModel FixedPointSpec PaillierModel.
From Coq Require Export Znumtheory.
Local Open Scope Z_scope.

(** [keypair n sk]: sk is the private key built for n from two primes. *)
Definition keypair (n : Z) (sk : privkey) : Prop :=
  exists p q, prime p /\ prime q /\ mk_privkey n p q = Ok sk.

(** The encrypted number [x] decrypts (as a residue) to the integer [M]. *)
Definition en_mant (sk : privkey) (x : enum) (M : Z) : Prop :=
  en_pk x = sk_n sk /\ Z.gcd (en_ct x) (sk_n sk) = 1 /\ sk_raw_decrypt sk (en_ct x) = M mod sk_n sk.

(** The encrypted number [x] holds the rational [q]: an in-range mantissa M with q = M * 16^(-exponent). *)
Definition en_value (sk : privkey) (x : enum) (q : Qc) : Prop :=
  exists M, Z.abs M <= pk_max_int (sk_n sk) /\ en_mant sk x M /\ q = (zq M * p2 (- (4 * en_exp x)))%Qc.

(** A cell (plain number or encrypted number) holds q. *)
Definition cell_value (sk : privkey) (c : cell) (q : Qc) : Prop :=
  match c with CNum v => num v = q | CEnc x => en_value sk x q end.

(** Expressions over encrypted values: leaves carry the value and the obfuscation draw; [GZero] is the plain
    integer 0 that histogram cells start from. *)
Inductive gexpr := GZero | GLeaf (v : Qc) (fresh : Z) | GAdd (a b : gexpr) | GSub (a b : gexpr).

Fixpoint geval (n : Z) (e : gexpr) : res cell :=
  match e with
  | GZero => Ok (CNum (PyInt 0))
  | GLeaf v r => x ← pk_encrypt n (PyFloat v) None None r; Ok (CEnc x)
  | GAdd a b => x ← geval n a; y ← geval n b; cell_add x y
  | GSub a b => x ← geval n a; y ← geval n b; cell_sub x y
  end.

(** The number a leaf stands for: its value after fixed-point encoding and decoding. *)
Definition leaf_value (n : Z) (v : Qc) : Qc :=
  match fp_encode (PyFloat v) (Some (n, pk_max_int n)) None None with
  | Ok f => match fp_decode f with Ok w => num w | Err _ => zq 0 end
  | Err _ => zq 0
  end.

Fixpoint gsum (n : Z) (e : gexpr) : Qc :=
  match e with
  | GZero => zq 0
  | GLeaf v _ => leaf_value n v
  | GAdd a b => (gsum n a + gsum n b)%Qc
  | GSub a b => (gsum n a - gsum n b)%Qc
  end.

Fixpoint gleaves (e : gexpr) : Z :=
  match e with GZero => 0 | GLeaf _ _ => 1 | GAdd a b | GSub a b => gleaves a + gleaves b end.

(** Every leaf is of magnitude at most 1 and obfuscated with a value prime to n. *)
Fixpoint gleaves_ok (n : Z) (e : gexpr) : Prop :=
  match e with
  | GZero => True
  | GLeaf v r => (qabs v <= zq 1)%Qc /\ Z.gcd r n = 1
  | GAdd a b | GSub a b => gleaves_ok n a /\ gleaves_ok n b
  end.
