(** Model of ml/secureprotol/fixedpoint.py (class FixedPointNumber).

    Python numbers: an [int] is [PyInt z], a [float] (or numpy float) is [PyFloat q] with q an exact rational.
    Simplifications: infinities and NaN are not represented; float products by powers of 16 are exact (they
    are exact in IEEE arithmetic too as long as no subnormal result arises); numpy integer types behave as
    [int]; operands of other types are not represented. *)
From Verif Require Export PyBase QcBase.
Local Open Scope Z_scope.

Inductive pynum := PyInt (z : Z) | PyFloat (q : Qc).

(** The number a Python int or float denotes. *)
Definition num (x : pynum) : Qc := match x with PyInt z => zq z | PyFloat q => q end.

(** Built-in [round]: nearest integer, ties to even. *)
Definition round_he (q : Qc) : Z :=
  let f := qfloor q in
  let r := (q - zq f)%Qc in
  if qltb r (p2 (-1)) then f
  else if qltb (p2 (-1)) r then f + 1
  else if Z.even f then f else f + 1.

(** [math.frexp(x)[1]]: the e with 2^(e-1) <= |x| < 2^e, and 0 for x = 0. *)
Definition frexp_e (q : Qc) : Z :=
  if qeqb q (zq 0) then 0
  else let l := Z.log2 (Z.abs (Qnum (this q))) - Z.log2 (Zpos (Qden (this q))) in
       if qleb (p2 l) (qabs q) then l + 1 else l.

(** Conversion to a double: round to 53 significant bits, ties to even (exponent range not bounded here; the
    callers below check overflow). *)
Definition fround (q : Qc) : Qc :=
  let s := 53 - frexp_e q in (zq (round_he (q * p2 s)) * p2 (- s))%Qc.

(** Smallest integer magnitude for which int -> float raises OverflowError: 2^1024 - 2^970. *)
Definition float_limit : Z := 2 ^ 1024 - 2 ^ 970.

(** [float(z)] as done implicitly by int * float. *)
Definition int_to_float (z : Z) : res Qc :=
  if float_limit <=? Z.abs z then Err OverflowError else Ok (fround (zq z)).

(** fixedpoint.py:33 the class constant Q, and :41 / :61 the default max_int. *)
Definition Qmod : Z := 293973345475167247070445277780365744413.
Definition Qmax : Z := Qmod / 3 - 1.

(** fixedpoint.py:35-44 attributes of a FixedPointNumber. *)
Record fp := FP { fp_enc : Z; fp_exp : Z; fp_n : Z; fp_max : Z }.

(** fixedpoint.py:35-44 constructor without n: class constants. *)
Definition fp_default (enc e : Z) : fp := FP enc e Qmod Qmax.

(** fixedpoint.py:81 [int(round(scalar * pow(BASE, exponent)))].
    int scalar: exact for exponent >= 0; for a negative exponent pow gives a float.
    float scalar: pow(16, exponent) must be convertible to float (exponent < 256), and an infinite product
    makes round raise OverflowError. *)
Definition scaled_round (x : pynum) (e : Z) : res Z :=
  match x with
  | PyInt z =>
      if 0 <=? e then Ok (z * 16 ^ e)
      else f ← int_to_float z; Ok (round_he (f * p2 (4 * e)))
  | PyFloat q =>
      if 256 <=? e then Err OverflowError
      else let y := (q * p2 (4 * e))%Qc in
           if qleb (p2 1024) (qabs y) then Err OverflowError else Ok (round_he y)
  end.

(** fixedpoint.py:56 the threshold 1e-200. *)
Definition tiny : Qc := Q2Qc (1 # 10 ^ 200).

(** fixedpoint.py:47-87 encode. [nm] = Some (n, max_int) or None for the class constants. [precision] is
    given as the integer floor(log(precision, 16)) (line 76), the logarithm itself is not modelled. *)
Definition fp_encode (x : pynum) (nm : option (Z * Z)) (precision max_exponent : option Z) : res fp :=
  let x := if qltb (qabs (num x)) tiny then PyInt 0 else x in
  let '(n, mx) := match nm with None => (Qmod, Qmax) | Some c => c end in
  let e0 := match precision with
            | None => match x with
                      | PyInt _ => 0
                      | PyFloat q => (53 - frexp_e q) / 4
                      end
            | Some e => e
            end in
  let e := match max_exponent with None => e0 | Some m => Z.max m e0 end in
  i ← scaled_round x e;
  if mx <? Z.abs i then Err ValueError
  else Ok (FP (i mod n) e n mx).

(** fixedpoint.py:89-104 decode. [mantissa * pow(16, -exponent)] is an int for exponent <= 0, otherwise the
    mantissa is converted to float first. *)
Definition fp_decode (x : fp) : res pynum :=
  m ← (if fp_n x <=? fp_enc x then Err ValueError
       else if fp_enc x <=? fp_max x then Ok (fp_enc x)
       else if fp_n x - fp_max x <=? fp_enc x then Ok (fp_enc x - fp_n x)
       else Err OverflowError);
  if fp_exp x <=? 0 then Ok (PyInt (m * 16 ^ (- fp_exp x)))
  else f ← int_to_float m; Ok (PyFloat (f * p2 (- (4 * fp_exp x)))%Qc).

(** fixedpoint.py:106-116 increase_exponent_to. *)
Definition fp_increase (x : fp) (e : Z) : res fp :=
  if e <? fp_exp x then Err ValueError
  else Ok (FP (fp_enc x * 16 ^ (e - fp_exp x) mod fp_n x) e (fp_n x) (fp_max x)).

(** fixedpoint.py:118-126 __align_exponent. *)
Definition fp_align (x y : fp) : res (fp * fp) :=
  if fp_exp x <? fp_exp y then x' ← fp_increase x (fp_exp y); Ok (x', y)
  else if fp_exp y <? fp_exp x then y' ← fp_increase y (fp_exp x); Ok (x, y')
  else Ok (x, y).

(** fixedpoint.py:241-244 __add_fixpointnumber: reduces modulo Q and drops n and max_int. *)
Definition fp_add_fp (x y : fp) : res fp :=
  '(x', y') ← fp_align x y;
  Ok (fp_default ((fp_enc x' + fp_enc y') mod Qmod) (fp_exp x')).

(** fixedpoint.py:246-248 __add_scalar: encodes with the class constants. *)
Definition fp_add_scalar (x : fp) (s : pynum) : res fp :=
  y ← fp_encode s None None None; fp_add_fp x y.

(** [-1 * scalar] *)
Definition py_neg (s : pynum) : pynum :=
  match s with PyInt z => PyInt (- z) | PyFloat q => PyFloat (- q)%Qc end.

(** fixedpoint.py:250-252 __sub_fixpointnumber, :254-256 __sub_scalar. *)
Definition fp_sub_fp (x y : fp) : res fp := v ← fp_decode y; fp_add_scalar x (py_neg v).
Definition fp_sub_scalar (x : fp) (s : pynum) : res fp := fp_add_scalar x (py_neg s).

(** fixedpoint.py:148-151 __rsub__ (scalar - x). *)
Definition fp_rsub (x : fp) (s : pynum) : res fp :=
  d ← fp_sub_scalar x s; v ← fp_decode d; fp_encode (py_neg v) None None None.

(** fixedpoint.py:258-263 __mul_fixpointnumber and :128-130 __truncate; :265-267 __mul_scalar. *)
Definition fp_mul_fp (x y : fp) : res fp :=
  v ← fp_decode (fp_default ((fp_enc x * fp_enc y) mod Qmod) (fp_exp x + fp_exp y));
  fp_encode v None None None.
Definition fp_mul_scalar (x : fp) (s : pynum) : res fp :=
  y ← fp_encode s None None None; fp_mul_fp x y.

(** fixedpoint.py:174-239 the six comparisons with another FixedPointNumber (Python compares ints and floats
    by exact value). *)
Inductive cmp_op := CLt | CGt | CLe | CGe | CEq | CNe.
Definition num_cmp (o : cmp_op) (a b : Qc) : bool :=
  match o with
  | CLt => qltb a b | CGt => qltb b a | CLe => qleb a b | CGe => qleb b a
  | CEq => qeqb a b | CNe => negb (qeqb a b)
  end.
Definition fp_cmp (o : cmp_op) (x y : fp) : res bool :=
  a ← fp_decode x; b ← fp_decode y; Ok (num_cmp o (num a) (num b)).
(** fixedpoint.py:174-239 comparison with a scalar. *)
Definition fp_cmp_scalar (o : cmp_op) (x : fp) (s : pynum) : res bool :=
  a ← fp_decode x; Ok (num_cmp o (num a) (num s)).
