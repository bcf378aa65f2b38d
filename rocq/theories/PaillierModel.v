(** Model of ml/secureprotol/gmpy_math.py and ml/secureprotol/fate_paillier.py. *)
From Verif Require Export PyBase QcBase FixedPointModel.
From Coq Require Import Zpow_facts.
Local Open Scope Z_scope.

(** gmpy_math.py:23-35 powmod. Both branches (Python's pow and gmpy2.powmod) compute a^b mod c for b >= 0;
    the shortcut for a = 1 is kept. Only called with b >= 0. *)
Definition powmod (a b c : Z) : Z := if a =? 1 then 1 else Zpow_mod a b c.

(** Extended Euclid: (g, u) with g = gcd and u * a = g modulo b. The algorithm behind gmpy2.invert. *)
Fixpoint egcd (fuel : nat) (a b : Z) : Z * Z * Z :=
  match fuel with
  | O => (a, 1, 0)
  | S f => if b =? 0 then (a, 1, 0)
           else let '(g, u, v) := egcd f b (a mod b) in (g, v, u - (a / b) * v)
  end.

(** gmpy_math.py:38-46 invert: the inverse in (0, b); ZeroDivisionError if there is none (gmpy2 either raises
    it or returns 0, which the code turns into the same exception). *)
Definition invert (a b : Z) : res Z :=
  let '(g, u, _) := egcd (Z.to_nat (2 * Z.log2 b + 3)) (a mod b) b in
  let x := u mod b in
  if (g =? 1) && negb (x =? 0) then Ok x else Err ZeroDivisionError.

(** fate_paillier.py:52-56 public key attributes; the key object is identified with n (its __eq__, line 62,
    compares n only). *)
Definition pk_g (n : Z) : Z := n + 1.
Definition pk_nsquare (n : Z) : Z := n * n.
Definition pk_max_int (n : Z) : Z := n / 3 - 1.

(** fate_paillier.py:68-74 apply_obfuscator. [rv] is the optional random_value argument (0 counts as absent,
    because of [or]); [fresh] is the value drawn by randrange(1, n). *)
Definition pk_apply_obfuscator (n c : Z) (rv : option Z) (fresh : Z) : Z :=
  let r := match rv with Some r => if r =? 0 then fresh else r | None => fresh end in
  (c * powmod r n (pk_nsquare n)) mod pk_nsquare n.

(** fate_paillier.py:76-93 raw_encrypt (the isinstance check on the argument is not represented: the argument
    is an int by type). *)
Definition pk_raw_encrypt (n m : Z) (rv : option Z) (fresh : Z) : res Z :=
  c ← (if (n - pk_max_int n <=? m) && (m <? n)
       then invert ((n * (n - m) + 1) mod pk_nsquare n) (pk_nsquare n)
       else Ok ((n * m + 1) mod pk_nsquare n));
  Ok (pk_apply_obfuscator n c rv fresh).

(** fate_paillier.py:201-211 attributes of PaillierEncryptedNumber. The flag __is_obfuscator is not
    represented: it only matters for ciphertext(be_secure=True), which no code in the repository calls. *)
Record enum := EN { en_pk : Z; en_ct : Z; en_exp : Z }.

(** fate_paillier.py:95-105 encrypt. With random_value None the number is encrypted with obfuscator 1 and then
    obfuscated with a fresh value (line 221-225). *)
Definition pk_encrypt (n : Z) (v : pynum) (prec rv : option Z) (fresh : Z) : res enum :=
  e ← fp_encode v (Some (n, pk_max_int n)) prec None;
  let ob := match rv with Some r => if r =? 0 then 1 else r | None => 1 end in
  c ← pk_raw_encrypt n (fp_enc e) (Some ob) fresh;
  match rv with
  | None => Ok (EN n (pk_apply_obfuscator n c None fresh) (fp_exp e))
  | Some _ => Ok (EN n c (fp_exp e))
  end.

(** fate_paillier.py:111-127 attributes of the private key. *)
Record privkey := SK { sk_n : Z; sk_p : Z; sk_q : Z; sk_qinv : Z; sk_hp : Z; sk_hq : Z }.

(** fate_paillier.py:146-150 l_func (Python floor division). *)
Definition l_func (x p : Z) : Z := (x - 1) / p.

(** fate_paillier.py:140-144 h_func. *)
Definition h_func (n x xsquare : Z) : res Z :=
  invert (l_func (powmod (pk_g n) (x - 1) xsquare) x) x.

(** fate_paillier.py:111-127 constructor. *)
Definition mk_privkey (n p q : Z) : res privkey :=
  if negb (p * q =? n) then Err ValueError
  else if p =? q then Err ValueError
  else
    let '(p', q') := if q <? p then (q, p) else (p, q) in
    qi ← invert q' p';
    hp ← h_func n p' (p' * p');
    hq ← h_func n q' (q' * q');
    Ok (SK n p' q' qi hp hq).

(** fate_paillier.py:152-159 crt. *)
Definition sk_crt (sk : privkey) (mp mq : Z) : Z :=
  let u := (mp - mq) * sk_qinv sk mod sk_p sk in
  (mq + u * sk_q sk) mod sk_n sk.

(** fate_paillier.py:161-176 raw_decrypt. *)
Definition sk_raw_decrypt (sk : privkey) (c : Z) : Z :=
  let p := sk_p sk in let q := sk_q sk in
  let mp := l_func (powmod c (p - 1) (p * p)) p * sk_hp sk mod p in
  let mq := l_func (powmod c (q - 1) (q * q)) q * sk_hq sk mod q in
  sk_crt sk mp mq.

(** Anything that may be passed to decrypt: an encrypted number or a plain Python number (e.g. the int 0 of an
    empty histogram cell). *)
Inductive cell := CNum (v : pynum) | CEnc (x : enum).

(** fate_paillier.py:178-195 decrypt. *)
Definition sk_decrypt (sk : privkey) (o : cell) : res pynum :=
  match o with
  | CNum _ => Err TypeError
  | CEnc x =>
      if negb (sk_n sk =? en_pk x) then Err ValueError
      else fp_decode (FP (sk_raw_decrypt sk (en_ct x)) (en_exp x) (sk_n sk) (pk_max_int (sk_n sk)))
  end.

(** fate_paillier.py:221-225 PaillierEncryptedNumber.apply_obfuscator. *)
Definition en_obfuscate (x : enum) (fresh : Z) : enum :=
  EN (en_pk x) (pk_apply_obfuscator (en_pk x) (en_ct x) None fresh) (en_exp x).

(** fate_paillier.py:248-268 __mul__ by a scalar. *)
Definition en_mul (x : enum) (s : pynum) : res enum :=
  let n := en_pk x in
  e ← fp_encode s (Some (n, pk_max_int n)) None None;
  let m := fp_enc e in
  if (m <? 0) || (n <=? m) then Err ValueError
  else
    c ← (if n - pk_max_int n <=? m
         then negc ← invert (en_ct x) (pk_nsquare n);
              Ok (powmod negc (n - m) (pk_nsquare n))
         else Ok (powmod (en_ct x) m (pk_nsquare n)));
    Ok (EN n c (en_exp x + fp_exp e)).

(** fate_paillier.py:270-281 increase_exponent_to. *)
Definition en_increase (x : enum) (e : Z) : res enum :=
  if e <? en_exp x then Err ValueError
  else y ← en_mul x (PyInt (16 ^ (e - en_exp x)));
       Ok (EN (en_pk y) (en_ct y) e).

(** fate_paillier.py:330-335 __raw_add. *)
Definition en_raw_add (n cx cy e : Z) : enum := EN n (cx * cy mod pk_nsquare n) e.

(** fate_paillier.py:317-328 __add_encryptednumber and :283-291 __align_exponent. *)
Definition en_add_enc (x y : enum) : res enum :=
  if negb (en_pk x =? en_pk y) then Err ValueError
  else
    '(x', y') ← (if en_exp x <? en_exp y then x' ← en_increase x (en_exp y); Ok (x', y)
                 else if en_exp y <? en_exp x then y' ← en_increase y (en_exp x); Ok (x, y')
                 else Ok (x, y));
    Ok (en_raw_add (en_pk x) (en_ct x') (en_ct y') (en_exp x')).

(** fate_paillier.py:303-315 __add_fixpointnumber. *)
Definition en_add_fp (x : enum) (f : fp) : res enum :=
  if negb (en_pk x =? fp_n f) then Err ValueError
  else
    '(x', f') ← (if en_exp x <? fp_exp f then x' ← en_increase x (fp_exp f); Ok (x', f)
                 else if fp_exp f <? en_exp x then f' ← fp_increase f (en_exp x); Ok (x, f')
                 else Ok (x, f));
    c ← pk_raw_encrypt (en_pk x') (fp_enc f') (Some 1) 1;
    Ok (en_raw_add (en_pk x) (en_ct x') c (en_exp x')).

(** fate_paillier.py:293-301 __add_scalar. *)
Definition en_add_scalar (x : enum) (s : pynum) : res enum :=
  f ← fp_encode s (Some (en_pk x, pk_max_int (en_pk x))) None (Some (en_exp x));
  en_add_fp x f.

(** Python [a + b] where each side is a plain number or an encrypted number: fate_paillier.py:227-234
    __add__/__radd__, and ordinary addition of two plain numbers (floats added exactly). *)
Definition py_add (a b : pynum) : pynum :=
  match a, b with
  | PyInt x, PyInt y => PyInt (x + y)
  | _, _ => PyFloat (num a + num b)%Qc
  end.
Definition cell_add (a b : cell) : res cell :=
  match a, b with
  | CNum x, CNum y => Ok (CNum (py_add x y))
  | CEnc x, CNum s => r ← en_add_scalar x s; Ok (CEnc r)
  | CNum s, CEnc x => r ← en_add_scalar x s; Ok (CEnc r)
  | CEnc x, CEnc y => r ← en_add_enc x y; Ok (CEnc r)
  end.

(** Python [x * -1]: fate_paillier.py:248 for encrypted numbers. *)
Definition cell_neg (a : cell) : res cell :=
  match a with
  | CNum x => Ok (CNum (py_neg x))
  | CEnc x => r ← en_mul x (PyInt (-1)); Ok (CEnc r)
  end.

(** Python [a - b]: fate_paillier.py:236-240 __sub__ = self + other * -1, __rsub__ = other + self * -1. *)
Definition cell_sub (a b : cell) : res cell := b' ← cell_neg b; cell_add a b'.
