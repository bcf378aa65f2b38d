(** C09-C11: fixed-point numbers. *)
From Verif Require Import PyBase QcBase FixedPointModel FixedPointSpec FixedPointProofs.
Local Open Scope Z_scope.

(** C09. Every integer is either encoded without loss or rejected with ValueError. With a positive exponent the
    decoded value is a float, so it is the integer itself when that is a double, and otherwise within 2^-53. *)
Theorem C09_int_roundtrip z n mx me : 0 <= mx -> 2 * mx < n ->
  Z.abs z * 16 ^ (match me with None => 0 | Some m => Z.max m 0 end) <= mx ->
  exists f, fp_encode (PyInt z) (Some (n, mx)) None me = Ok f /\ fp_holds f (zq z)
    /\ fp_exp f = match me with None => 0 | Some m => Z.max m 0 end
    /\ (fp_exp f = 0 -> fp_decode f = Ok (PyInt z))
    /\ (0 < fp_exp f -> Z.abs z * 16 ^ fp_exp f < float_limit ->
          exists v, fp_decode f = Ok (PyFloat v) /\ (qabs (v - zq z) <= p2 (-53) * qabs (zq z))%Qc
                    /\ (is_double (zq z) -> v = zq z))
    /\ (0 < fp_exp f -> float_limit <= Z.abs z * 16 ^ fp_exp f -> fp_decode f = Err OverflowError).
Proof.
  intros H0 H1 H2. destruct (encode_decode_int z n mx me H0 H1 H2) as (f & Hf & Hh & He & R).
  exists f. rewrite He. exact (conj Hf (conj Hh (conj eq_refl R))).
Qed.
Print Assumptions C09_int_roundtrip.

Theorem C09_int_rejected z n mx me : 0 <= mx -> 2 * mx < n ->
  mx < Z.abs z * 16 ^ (match me with None => 0 | Some m => Z.max m 0 end) ->
  fp_encode (PyInt z) (Some (n, mx)) None me = Err ValueError.
Proof.
  intros H0 H1 H2. rewrite encode_int by assumption. fold (int_exp me) in H2.
  now rewrite (proj2 (Z.leb_gt _ _) H2).
Qed.
Print Assumptions C09_int_rejected.

(** -12345 with the default constants: decoded exactly; one past max_int: rejected. *)
Example C09_ex : match fp_encode (PyInt (-12345)) None None None with
  | Ok f => fp_decode f | Err e => Err e end = Ok (PyInt (-12345))
  /\ fp_encode (PyInt (Qmax + 1)) None None None = Err ValueError
  /\ (0 <= Qmax /\ 2 * Qmax < Qmod /\ 12345 * 16 ^ 3 <= Qmax).
Proof. vm_compute. repeat split; discriminate. Qed.

(** C10. Decoding an encoded double gives a value within half a unit 16^-exponent, hence (default precision)
    within relative 2^-50; values below 1e-200 decode to zero. *)
Theorem C10_float_error q n mx prec me f :
  is_double q -> 0 <= mx -> 2 * mx < n ->
  fp_encode (PyFloat q) (Some (n, mx)) prec me = Ok f ->
  exists v, fp_decode f = Ok v /\ fp_holds f (num v)
    /\ ((qabs q < tiny)%Qc -> num v = zq 0)
    /\ ((tiny <= qabs q)%Qc ->
          (qabs (num v - q) <= p2 (-1) * p2 (- (4 * fp_exp f)))%Qc
          /\ (prec = None -> (qabs (num v - q) <= p2 (-50) * qabs q)%Qc)).
Proof. exact (encode_float_sound q n mx prec me f). Qed.
Print Assumptions C10_float_error.

(** Ties: a double halfway between two representable values is encoded as the one with the even integer. *)
Lemma round_he_tie q : qabs (zq (round_he q) - q)%Qc = p2 (-1) -> Z.Even (round_he q).
Proof.
  pose proof (qfloor_le q) as H1. pose proof (qfloor_lt q) as H2. rewrite zq_add in H2. change (p2 (-1)) with (Q2Qc (1 # 2)). change (zq 1) with (Q2Qc (1 # 1)) in *. unfold round_he. change (p2 (-1)) with (Q2Qc (1 # 2)).
  destruct (qltb _ _) eqn:E1; [|destruct (qltb _ (q - _)%Qc) eqn:E2; [|destruct (Z.even (qfloor q)) eqn:E3]]; rewrite ?zq_add; change (zq 1) with (Q2Qc (1 # 1)); intros H.
  - exfalso. apply qltb_true in E1. destruct (qabs_spec (zq (qfloor q) - q)%Qc) as [[X Y]|[X Y]]; rewrite Y in H; qlra.
  - exfalso. apply qltb_true in E2. destruct (qabs_spec (zq (qfloor q) + Q2Qc (1 # 1) - q)%Qc) as [[X Y]|[X Y]]; rewrite Y in H; qlra.
  - now apply Z.even_spec.
  - apply Z.even_spec. now rewrite Z.even_add, E3.
Qed.
Theorem C10_float_ties q n mx prec me f v : is_double q -> 0 <= mx -> 2 * mx < n -> (tiny <= qabs q)%Qc -> fp_encode (PyFloat q) (Some (n, mx)) prec me = Ok f -> fp_decode f = Ok v ->
  qabs (num v - q)%Qc = (p2 (-1) * p2 (- (4 * fp_exp f)))%Qc -> exists j, num v = (zq (2 * j) * p2 (- (4 * fp_exp f)))%Qc.
Proof.
  intros Hd H0 H1 Ht. unfold fp_encode. cbn [num]. rewrite (proj2 (qltb_false _ _) Ht). set (e := match me with Some m => _ | None => _ end).
  destruct (scaled_round (PyFloat q) e) as [i|] eqn:Es; [|discriminate]. cbn [mbind res_bind]. destruct (mx <? Z.abs i) eqn:Ei; [discriminate|]. intros [= <-]. apply Z.ltb_ge in Ei.
  rewrite (fp_decode_mant _ _ (encode_mant n mx i H0 H1 Ei e)). destruct (double_scaled_decode q e i Hd Es) as (v' & Hv & Hn). cbn [fp_exp]. rewrite Hv. intros [= <-]. cbn [fp_exp]. rewrite Hn. intros T.
  apply scaled_float_ok in Es as (_ & _ & ->). destruct (round_he_tie (q * p2 (4 * e))%Qc) as [j Hj]; [|exists j; now rewrite Hj].
  replace (zq (round_he (q * p2 (4 * e))) * p2 (- (4 * e)) - q)%Qc with ((zq (round_he (q * p2 (4 * e))) - q * p2 (4 * e)) * p2 (- (4 * e)))%Qc in T by (rewrite p2_opp; field; apply p2_nz).
  rewrite qabs_mul, qabs_p2 in T. pose proof (p2_nz (- (4 * e))) as NZ. apply (f_equal (fun x => (x / p2 (- (4 * e)))%Qc)) in T. rewrite !Qcdiv_mult_l in T by exact NZ. exact T.
Qed.
Print Assumptions C10_float_ties.
(** With precision 1 the exponent is 0, and 5/2 is encoded as 2, 7/2 as 4. *)
Example C10_ties_ex : (f ← fp_encode (PyFloat (Q2Qc (5 # 2))) None (Some 0) None; fp_decode f) = Ok (PyInt 2) /\ (f ← fp_encode (PyFloat (Q2Qc (7 # 2))) None (Some 0) None; fp_decode f) = Ok (PyInt 4).
Proof. split; vm_compute; reflexivity. Qed.

(** With the default precision no double is rejected as long as max_int is at least 2^53. *)
Theorem C10_float_total q n mx :
  2 ^ 53 <= mx ->
  exists f, fp_encode (PyFloat q) (Some (n, mx)) None None = Ok f
    /\ fp_n f = n /\ fp_max f = mx /\ fp_exp f <= 179
    /\ ((tiny <= qabs q)%Qc -> (qabs q <= zq 1)%Qc -> 13 <= fp_exp f)
    /\ ((qabs q < tiny)%Qc -> fp_exp f = 0).
Proof. exact (encode_float_total q n mx). Qed.
Print Assumptions C10_float_total.

(** The encoding loses low bits: 3 + 2^-51 is a double and comes back as 3. *)
Theorem C10_lossless_refuted : exists q f v, is_double q /\ fp_encode (PyFloat q) None None None = Ok f
  /\ fp_decode f = Ok v /\ num v <> q /\ num v = zq 3.
Proof.
  set (q := (zq 6755399441055745 * p2 (-51))%Qc).
  exists q.
  destruct (fp_encode (PyFloat q) None None None) as [f|] eqn:E; [|vm_compute in E; discriminate].
  exists f. destruct (fp_decode f) as [v|] eqn:D.
  - exists v. split; [exists 6755399441055745, (-51); split; [reflexivity|reflexivity]|].
    split; [reflexivity|]. split; [reflexivity|].
    vm_compute in E. injection E as <-. vm_compute in D. injection D as <-.
    split.
    + apply qeqb_false. vm_compute. reflexivity.
    + apply qeqb_true. vm_compute. reflexivity.
  - vm_compute in E. injection E as <-. vm_compute in D. discriminate.
Qed.
Print Assumptions C10_lossless_refuted.

(** 0.1 as a double is encoded, with exponent 14, and decoded. *)
Example C10_ex : let q := (zq 7205759403792794 * p2 (-56))%Qc in
  is_double q /\ qleb tiny (qabs q) = true /\
  match fp_encode (PyFloat q) (Some (Qmod, Qmax)) None None with
  | Ok f => fp_exp f = 14 /\ match fp_decode f with Ok v => qeqb (num v) q = true | _ => False end
  | Err _ => False end.
Proof.
  split; [exists 7205759403792794, (-56); split; reflexivity|].
  vm_compute. repeat split; reflexivity.
Qed.

(** C11. Arithmetic on numbers encoded with the class constants. *)
Theorem C11_add x y qx qy :
  fp_std x -> fp_std y -> fp_holds x qx -> fp_holds y qy ->
  (qabs (qx + qy) <= zq Qmax * p2 (- (4 * Z.max (fp_exp x) (fp_exp y))))%Qc ->
  exists r, fp_add_fp x y = Ok r /\ fp_std r /\ fp_exp r = Z.max (fp_exp x) (fp_exp y)
            /\ fp_holds r (qx + qy)%Qc.
Proof. exact (fp_add_ok x y qx qy). Qed.
Print Assumptions C11_add.

Theorem C11_add_scalar x s y qx qs :
  fp_std x -> fp_holds x qx -> fp_encode s None None None = Ok y -> fp_std y -> fp_holds y qs ->
  (qabs (qx + qs) <= zq Qmax * p2 (- (4 * Z.max (fp_exp x) (fp_exp y))))%Qc ->
  exists r, fp_add_scalar x s = Ok r /\ fp_std r /\ fp_holds r (qx + qs)%Qc.
Proof. exact (fp_add_scalar_ok x s y qx qs). Qed.
Print Assumptions C11_add_scalar.

(** Subtraction goes through decode and encode; it is exact when the subtrahend's mantissa has at most 53 bits
    (every freshly encoded double or small integer). [E] is any exponent that covers both operands. *)
Theorem C11_sub x y qx m qy E :
  fp_std x -> fp_holds x qx -> fp_mant y m -> Z.abs m <= 2 ^ 53 -> qy = (zq m * p2 (- (4 * fp_exp y)))%Qc ->
  (qy = zq 0 \/ (tiny <= qabs qy)%Qc) -> (qabs qy <= zq Qmax)%Qc ->
  0 <= E -> fp_exp x <= E -> (qy = zq 0 \/ (zq (2 ^ 53) <= qabs qy * p2 (4 * (E + 1)))%Qc) ->
  (qabs (qx - qy) <= zq Qmax * p2 (- (4 * E)))%Qc ->
  exists r, fp_sub_fp x y = Ok r /\ fp_std r /\ fp_holds r (qx - qy)%Qc.
Proof. exact (fp_sub_ok x y qx m qy E). Qed.
Print Assumptions C11_sub.

(** scalar - x is minus (x - scalar), exactly, when x - scalar has a mantissa of at most 53 bits. *)
Theorem C11_rsub x s d m q :
  fp_sub_scalar x s = Ok d -> fp_mant d m -> Z.abs m <= 2 ^ 53 -> q = (zq m * p2 (- (4 * fp_exp d)))%Qc ->
  (q = zq 0 \/ (tiny <= qabs q)%Qc) -> (qabs q <= zq Qmax)%Qc ->
  exists r, fp_rsub x s = Ok r /\ fp_std r /\ fp_holds r (- q)%Qc.
Proof. exact (fp_rsub_ok x s d m q). Qed.
Print Assumptions C11_rsub.

Theorem C11_mul x y qx qy :
  fp_std x -> fp_std y -> fp_holds x qx -> fp_holds y qy ->
  (qabs (qx * qy) <= zq Qmax * p2 (- (4 * (fp_exp x + fp_exp y))))%Qc ->
  (fp_exp x + fp_exp y <= 0 -> (qabs (qx * qy) <= zq Qmax)%Qc) ->
  exists r w, fp_mul_fp x y = Ok r /\ fp_std r /\ fp_holds r w
    /\ (fp_exp x + fp_exp y <= 0 -> w = (qx * qy)%Qc)
    /\ (qabs (w - qx * qy) <= p2 (-49) * qabs (qx * qy) + tiny)%Qc.
Proof. exact (fp_mul_ok x y qx qy). Qed.
Print Assumptions C11_mul.

Theorem C11_mul_scalar x s y qx qs :
  fp_std x -> fp_holds x qx -> fp_encode s None None None = Ok y -> fp_std y -> fp_holds y qs ->
  (qabs (qx * qs) <= zq Qmax * p2 (- (4 * (fp_exp x + fp_exp y))))%Qc ->
  (fp_exp x + fp_exp y <= 0 -> (qabs (qx * qs) <= zq Qmax)%Qc) ->
  exists r w, fp_mul_scalar x s = Ok r /\ fp_std r /\ fp_holds r w
    /\ (fp_exp x + fp_exp y <= 0 -> w = (qx * qs)%Qc)
    /\ (qabs (w - qx * qs) <= p2 (-49) * qabs (qx * qs) + tiny)%Qc.
Proof.
  intros Sx Hx E Sy Hy B1 B2. destruct (C11_mul x y qx qs Sx Sy Hx Hy B1 B2) as (r & w & R & H).
  exists r, w. split; [|exact H]. unfold fp_mul_scalar. rewrite E. exact R.
Qed.
Print Assumptions C11_mul_scalar.
(** 2.5 times the integer -7. *)
Example C11_mul_scalar_ex :
  match fp_mul_scalar (fp_default 703687441776640 12) (PyInt (-7)) with
  | Ok c => match fp_decode c with Ok c => qeqb (num c) (Q2Qc (-35 # 2)) | _ => false end
  | _ => false end = true.
Proof. vm_compute. reflexivity. Qed.

Theorem C11_compare o x y m1 m2 :
  fp_mant x m1 -> fp_mant y m2 -> Z.abs m1 <= 2 ^ 53 -> Z.abs m2 <= 2 ^ 53 ->
  exists b, fp_cmp o x y = Ok b /\
    (b = true <-> cmp_means o (zq m1 * p2 (- (4 * fp_exp x))) (zq m2 * p2 (- (4 * fp_exp y)))).
Proof. exact (fp_cmp_ok o x y m1 m2). Qed.
Print Assumptions C11_compare.

Theorem C11_compare_scalar o x m1 s : fp_mant x m1 -> Z.abs m1 <= 2 ^ 53 ->
  exists b, fp_cmp_scalar o x s = Ok b /\
    (b = true <-> cmp_means o (zq m1 * p2 (- (4 * fp_exp x))) (num s)).
Proof. exact (fp_cmp_scalar_ok o x m1 s). Qed.
Print Assumptions C11_compare_scalar.

(** With a caller-supplied modulus the sum of 5 and -3 is not 2. *)
Theorem C11_custom_modulus_refuted : exists n mx x y r,
  fp_encode (PyInt 5) (Some (n, mx)) None None = Ok x /\ fp_encode (PyInt (-3)) (Some (n, mx)) None None = Ok y
  /\ fp_holds x (zq 5) /\ fp_holds y (zq (-3))
  /\ fp_add_fp x y = Ok r /\ fp_decode r = Ok (PyInt 1000005).
Proof.
  exists 1000003, 333333. do 3 eexists. split; [reflexivity|]. split; [reflexivity|].
  split; [exists 5; split; [vm_compute; repeat split; discriminate|reflexivity]|].
  split; [exists (-3); split; [vm_compute; repeat split; discriminate|reflexivity]|].
  split; reflexivity.
Qed.
Print Assumptions C11_custom_modulus_refuted.

(** 2.5 (exponent 12) and -7 (exponent 0). *)
Example C11_ex :
  let x := fp_default (703687441776640) 12 in let y := fp_default ((-7) mod Qmod) 0 in
  fp_encode (PyFloat (Q2Qc (5 # 2))) None None None = Ok x /\ fp_encode (PyInt (-7)) None None None = Ok y /\
  fp_std x /\ fp_std y /\ fp_holds x (Q2Qc (5 # 2)) /\ fp_holds y (zq (-7)) /\ fp_mant y (-7) /\
  match fp_add_fp x y, fp_sub_fp x y, fp_mul_fp x y, fp_cmp CLt x y, fp_rsub x (PyInt 1) with
  | Ok a, Ok b, Ok c, Ok d, Ok e =>
      match fp_decode a, fp_decode b, fp_decode c, fp_decode e with
      | Ok a, Ok b, Ok c, Ok e => qeqb (num a) (Q2Qc (-9 # 2)) && qeqb (num b) (Q2Qc (19 # 2))
                            && qeqb (num c) (Q2Qc (-35 # 2)) && negb d && qeqb (num e) (Q2Qc (-3 # 2))
      | _, _, _, _ => false end
  | _, _, _, _, _ => false end = true.
Proof.
  cbv zeta. split; [vm_compute; reflexivity|]. split; [vm_compute; reflexivity|].
  split; [split; reflexivity|]. split; [split; reflexivity|].
  split; [exists 703687441776640; split; [vm_compute; repeat split; discriminate|apply qeqb_true; vm_compute; reflexivity]|].
  split; [exists (-7); split; [vm_compute; repeat split; discriminate|apply qeqb_true; vm_compute; reflexivity]|].
  split; [vm_compute; repeat split; discriminate|].
  vm_compute. reflexivity.
Qed.
