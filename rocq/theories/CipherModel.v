(** Model of the RSA and affine ciphers: ml/secureprotol/encrypt.py, affine.py, affine_encoder.py. *)
From Verif Require Export PyBase QcBase FixedPointModel PaillierModel.
Local Open Scope Z_scope.

(** encrypt.py:118-123 attributes e, d, n of RsaEncrypt, each None or an int. *)
Record rsa := RSA { rsa_e : option Z; rsa_d : option Z; rsa_n : option Z }.

(** encrypt.py:119-123 *)
Definition rsa_init : rsa := RSA None None None.

(** encrypt.py:125-130 generate_key; the numbers come from the Crypto library. *)
Definition rsa_generate (e d n : Z) (r : rsa) : rsa := RSA (Some e) (Some d) (Some n).

(** encrypt.py:135-137 set_public_key *)
Definition rsa_set_public (e n : Z) (r : rsa) : rsa := RSA (Some e) (rsa_d r) (Some n).

(** encrypt.py:142-144 set_privacy_key *)
Definition rsa_set_private (d n : Z) (r : rsa) : rsa := RSA (rsa_e r) (Some d) (Some n).

(** encrypt.py:149-153 encrypt; None is Python's None. *)
Definition rsa_encrypt (r : rsa) (v : Z) : option Z :=
  match rsa_e r, rsa_n r with
  | Some e, Some n => Some (powmod v e n)
  | _, _ => None
  end.

(** encrypt.py:155-159 decrypt *)
Definition rsa_decrypt (r : rsa) (v : Z) : option Z :=
  match rsa_d r, rsa_n r with
  | Some d, Some n => Some (powmod v d n)
  | _, _ => None
  end.

(** affine.py:43-49 attributes of AffineCipherKey; encode_precision is the encoder's mult. *)
Record akey := AK { ak_a : Z; ak_b : Z; ak_n : Z; ak_inv : Z; ak_mult : Z }.

(** affine.py:44-49, 66-67 constructor. *)
Definition mk_akey (a b n mult : Z) : res akey :=
  i ← invert a n; Ok (AK a b n i mult).

(** affine.py:29-40 generate_keypair. [cands] are the successive values drawn for a; the loop ends at the first one
    prime to n. None: no drawn value is prime to n, the loop goes on. *)
Definition aff_generate (n : Z) (cands : list Z) (b mult : Z) : option (res akey) :=
  match List.find (fun a => Z.gcd n a =? 1) cands with
  | Some a => Some (mk_akey a b n mult)
  | None => None
  end.

(** affine.py:70-73 *)
Record act := ACT { ac_cipher : Z; ac_mult : Z }.

(** Python's int(x) of a finite float: truncation towards zero. *)
Definition trunc (q : Qc) : Z := if qltb q (zq 0) then - qfloor (- q)%Qc else qfloor q.

(** affine_encoder.py:23-24 encode with trans = 0 (the only value in use). For a float the product with the int
    mult is a float product; int() of an infinite product raises OverflowError. *)
Definition aff_encode (mult : Z) (x : pynum) : res Z :=
  match x with
  | PyInt z => Ok (mult * z)
  | PyFloat q => m ← int_to_float mult;
      let y := fround (m * q)%Qc in
      if qleb (p2 1024) (qabs y) then Err OverflowError else Ok (trunc y)
  end.

(** Python's true division of ints: the quotient rounded once to a double. *)
Definition int_truediv (a b : Z) : res Qc :=
  if b =? 0 then Err ZeroDivisionError
  else let y := fround (zq a / zq b)%Qc in if qleb (p2 1024) (qabs y) then Err OverflowError else Ok y.

(** affine_encoder.py:26-27 decode with trans = 0: subtracting multiplier * 0 leaves the float as it is. *)
Definition aff_decode (mult c : Z) : res pynum := q ← int_truediv c mult; Ok (PyFloat q).

(** The double nearest to 0.9. *)
Definition d09 : Qc := (zq 8106479329266893 * p2 (-53))%Qc.

(** affine.py:57-58 raw_encrypt *)
Definition aff_raw_encrypt (k : akey) (m : Z) : act := ACT ((ak_a k * m + ak_b k) mod ak_n k) 1.

(** affine.py:60-64 raw_decrypt *)
Definition aff_raw_decrypt (k : akey) (c : act) : res Z :=
  let p := (ak_inv k * (ac_cipher c mod ak_n k - ac_mult c * ak_b k)) mod ak_n k in
  q ← int_truediv p (ak_n k);
  Ok (if qltb d09 q then p - ak_n k else p).

(** affine.py:51-52 encrypt, 54-55 decrypt *)
Definition aff_encrypt (k : akey) (x : pynum) : res act := m ← aff_encode (ak_mult k) x; Ok (aff_raw_encrypt k m).
Definition aff_decrypt (k : akey) (c : act) : res pynum := m ← aff_raw_decrypt k c; aff_decode (ak_mult k) m.

(** A Python object in an affine expression: an int or a ciphertext. *)
Inductive acell := AInt (z : Z) | ACipher (c : act).

(** affine.py:75-84 __add__, __radd__ and int addition. *)
Definition aff_add (x y : acell) : res acell :=
  match x, y with
  | AInt a, AInt b => Ok (AInt (a + b))
  | ACipher c, ACipher d => Ok (ACipher (ACT (ac_cipher c + ac_cipher d) (ac_mult c + ac_mult d)))
  | ACipher c, AInt z | AInt z, ACipher c => if z =? 0 then Ok (ACipher c) else Err TypeError
  end.

(** affine.py:86-93 __mul__, __rmul__: by an int; the product of two ciphertexts raises TypeError. *)
Definition aff_mul (x y : acell) : res acell :=
  match x, y with
  | AInt a, AInt b => Ok (AInt (a * b))
  | ACipher c, AInt k | AInt k, ACipher c => Ok (ACipher (ACT (ac_cipher c * k) (ac_mult c * k)))
  | ACipher _, ACipher _ => Err TypeError
  end.

(** affine.py:95-99 __sub__: self + (other * -1); __rsub__: other + (self * -1). *)
Definition aff_sub (x y : acell) : res acell :=
  match x, y with
  | AInt a, AInt b => Ok (AInt (a - b))
  | _, _ => t ← aff_mul y (AInt (-1)); aff_add x t
  end.

(** affine.py:101-102 __truediv__ of a ciphertext: 1 / other is a float for every non-zero int (also when it is too
    small for a double) and not defined for a ciphertext, so that __mul__ is never reached with an int. *)
Definition aff_div (c : act) (y : acell) : res acell :=
  match y with
  | AInt z => if z =? 0 then Err ZeroDivisionError else Err TypeError
  | ACipher _ => Err TypeError
  end.
