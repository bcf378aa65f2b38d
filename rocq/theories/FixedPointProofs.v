From Verif Require Import PyBase QcBase FixedPointModel FixedPointSpec.
From Coq Require Import ZifyBool.
Local Open Scope Z_scope.

(** ** Rounding *)
Lemma p2_m1 : p2 (-1) = (/ zq 2)%Qc.
Proof. reflexivity. Qed.
Lemma p2_1 : p2 1 = zq 2.
Proof. reflexivity. Qed.

Lemma round_he_err q : (qabs (zq (round_he q) - q) <= p2 (-1))%Qc.
Proof.
  pose proof (qfloor_le q) as H1. pose proof (qfloor_lt q) as H2.
  rewrite zq_add in H2. rewrite qabs_le.
  assert (E : this (p2 (-1)) == 1#2) by reflexivity.
  assert (E1 : this (zq 1) == 1) by reflexivity.
  unfold round_he.
  repeat match goal with |- context [if ?b then _ else _] => destruct b eqn:? end;
  rewrite ?zq_add; split; qc_push; lra.
Qed.

Lemma round_he_zq z : round_he (zq z) = z.
Proof.
  unfold round_he. rewrite qfloor_zq.
  replace (zq z - zq z)%Qc with (zq 0) by (rewrite zq_0; ring).
  reflexivity.
Qed.

Lemma zq_abs_lt_1 z q : (qabs (zq z - q) <= p2 (-1))%Qc -> forall M, (qabs q <= zq M)%Qc -> Z.abs z <= M.
Proof.
  intros H M HM. apply qabs_le in H, HM. rewrite <- zq_opp in HM.
  assert (E : this (p2 (-1)) == 1#2) by reflexivity.
  assert (E1 : this (zq 1) == 1) by reflexivity.
  assert (H1 : (zq z < zq (M + 1))%Qc) by (rewrite zq_add; destruct H, HM; qc_push; lra).
  assert (H2 : (zq (- M - 1) < zq z)%Qc) by (rewrite zq_sub; destruct H, HM; qc_push; lra).
  rewrite zq_lt in H1, H2. lia.
Qed.

Lemma round_he_bound q M : (qabs q <= zq M)%Qc -> Z.abs (round_he q) <= M.
Proof. intros H. eapply zq_abs_lt_1; [apply round_he_err|exact H]. Qed.

(** ** frexp *)
Lemma qabs_num_den (q : Qc) : qabs q = (zq (Z.abs (Qnum (this q))) * / zq (Zpos (Qden (this q))))%Qc.
Proof.
  assert (E : q = (zq (Qnum (this q)) * / zq (Zpos (Qden (this q))))%Qc).
  { apply Qc_eq_this. rewrite this_mul, this_inv, !this_zq.
    destruct (this q) as [a b]. cbn [Qnum Qden].
    unfold Qeq, Qmult, Qinv, inject_Z. cbn. lia. }
  rewrite E at 1. rewrite qabs_mul, qabs_zq. f_equal.
  destruct (qabs_spec (/ zq (Z.pos (Qden (this q))))%Qc) as [[_ ->]|[H _]]; [reflexivity|].
  exfalso. qc_push. revert H. apply Qle_not_lt. apply Qinv_le_0_compat. unfold inject_Z, Qle. cbn. lia.
Qed.

Lemma Qc_mul_lt_r a b c : (0 < c)%Qc -> (a * c < b * c)%Qc -> (a < b)%Qc.
Proof. intros Hc H. qc_push. nra. Qed.
Lemma Qc_mul_le_r a b c : (0 < c)%Qc -> (a * c <= b * c)%Qc -> (a <= b)%Qc.
Proof. intros Hc H. qc_push. nra. Qed.

Lemma frexp_spec q : q <> zq 0 -> (p2 (frexp_e q - 1) <= qabs q)%Qc /\ (qabs q < p2 (frexp_e q))%Qc.
Proof.
  intros Hq. unfold frexp_e. rewrite (proj2 (qeqb_false _ _) Hq).
  set (a := Z.abs (Qnum (this q))). set (b := Zpos (Qden (this q))).
  assert (Ha : 0 < a).
  { unfold a. destruct (Z.eq_dec (Qnum (this q)) 0) as [E|]; [|lia].
    exfalso. apply Hq, Qc_eq_this. destruct (this q) as [x y]. cbn in E. subst x. reflexivity. }
  assert (Hb : 0 < b) by (unfold b; lia).
  assert (Eq : (qabs q * zq b = zq a)%Qc).
  { rewrite qabs_num_den. fold a b. field. intros E. rewrite <- zq_0 in E. apply zq_inj in E. lia. }
  pose proof (Z.log2_spec a Ha) as [Ha1 Ha2]. pose proof (Z.log2_spec b Hb) as [Hb1 Hb2].
  pose proof (Z.log2_nonneg a). pose proof (Z.log2_nonneg b).
  set (la := Z.log2 a) in *. set (lb := Z.log2 b) in *.
  apply zq_le in Ha1, Hb1. apply zq_lt in Ha2, Hb2.
  rewrite <- p2_nonneg in Ha1, Ha2, Hb1, Hb2 by lia.
  rewrite <- Eq in Ha1, Ha2.
  assert (Hbp : (0 < zq b)%Qc) by (rewrite <- zq_0; apply zq_lt; lia).
  destruct (qleb (p2 (la - lb)) (qabs q)) eqn:E.
  - apply qleb_true in E. replace (la - lb + 1 - 1) with (la - lb) by lia. split; [exact E|].
    apply (Qc_mul_lt_r _ _ (zq b) Hbp).
    eapply Qclt_le_trans; [exact Ha2|].
    replace (Z.succ la) with ((la - lb + 1) + lb) by lia. rewrite p2_add.
    pose proof (p2_pos (la - lb + 1)). qc_push. nra.
  - apply qleb_false in E. split; [|exact E].
    apply (Qc_mul_le_r _ _ (zq b) Hbp).
    eapply Qcle_trans; [|exact Ha1].
    replace la with ((la - lb - 1) + Z.succ lb) at 2 by lia. rewrite p2_add.
    pose proof (p2_pos (la - lb - 1)). qc_push. nra.
Qed.

(** ** Conversion to double *)
Lemma zq_p2_int k t : 0 <= t -> (zq k * p2 t)%Qc = zq (k * 2 ^ t).
Proof. intros H. rewrite p2_nonneg, zq_mul by lia. reflexivity. Qed.

Lemma p2_sub_add a b : (p2 a * p2 b = p2 (a + b))%Qc.
Proof. symmetry. apply p2_add. Qed.

Lemma qabs_p2 e : qabs (p2 e) = p2 e.
Proof. destruct (qabs_spec (p2 e)) as [[_ ->]|[H _]]; [reflexivity|]. pose proof (p2_pos e). exfalso. qlra. Qed.

Lemma qabs_0 a : qabs a = zq 0 <-> a = zq 0.
Proof.
  split.
  - destruct (qabs_spec a) as [[_ ->]|[H ->]]; [auto|]. intros E. rewrite zq_0 in *. qc_push.
    change (this 0%Qc) with 0%Q in *. lra.
  - intros ->. reflexivity.
Qed.

Lemma fround_0 : fround (zq 0) = zq 0.
Proof. apply Qc_eq_this. vm_compute. reflexivity. Qed.

Lemma fround_exact k t : Z.abs k <= 2 ^ 53 -> fround (zq k * p2 t)%Qc = (zq k * p2 t)%Qc.
Proof.
  intros Hk. destruct (Z.eq_dec k 0) as [->|Hk0].
  { replace (zq 0 * p2 t)%Qc with (zq 0) by (rewrite zq_0; ring). apply fround_0. }
  set (x := (zq k * p2 t)%Qc).
  assert (Hx : x <> zq 0).
  { intros E. unfold x in E. rewrite zq_0 in E. apply Qcmult_integral in E as [E|E].
    - rewrite <- zq_0 in E. apply zq_inj in E. contradiction.
    - now apply p2_nz in E. }
  destruct (frexp_spec x Hx) as [H1 H2]. unfold fround. set (fe := frexp_e x) in *.
  assert (Hint : exists z, (x * p2 (53 - fe))%Qc = zq z).
  { unfold x. rewrite <- Qcmult_assoc, p2_sub_add.
    destruct (Z_lt_le_dec (t + (53 - fe)) 0) as [Hneg|Hpos].
    - assert (Hax : qabs x = (zq (Z.abs k) * p2 t)%Qc).
      { unfold x. now rewrite qabs_mul, qabs_zq, qabs_p2. }
      assert (Hub : (qabs x <= p2 (53 + t))%Qc).
      { rewrite Hax, p2_add, (p2_nonneg 53) by lia. apply zq_le in Hk. pose proof (p2_pos t). qc_push. nra. }
      assert (Hfe : fe - 1 <= 53 + t).
      { destruct (Z_le_gt_dec (fe - 1) (53 + t)) as [|Hgt]; [assumption|].
        assert (H3 : (p2 (53 + t) < p2 (fe - 1))%Qc) by (apply p2_lt; lia). exfalso. qlra. }
      assert (Hk2 : 2 ^ 53 <= Z.abs k).
      { rewrite Hax in H1. replace (fe - 1) with (53 + t) in H1 by lia.
        rewrite p2_add in H1. apply Qc_mul_le_r in H1; [|apply p2_pos].
        rewrite p2_nonneg in H1 by lia. now rewrite zq_le in H1. }
      exists (k / 2). replace (t + (53 - fe)) with (-1) by lia.
      assert (k mod 2 = 0).
      { assert (Z.abs k = 2 ^ 53) by lia. destruct (Z.abs_eq_or_opp k) as [E|E].
        - now replace k with (2 ^ 53) by lia.
        - now replace k with (- 2 ^ 53) by lia. }
      rewrite p2_m1. rewrite (Z.div_mod k 2) at 1 by lia. rewrite H, Z.add_0_r, zq_mul. field.
      intros E. rewrite <- zq_0 in E. apply zq_inj in E. discriminate.
    - exists (k * 2 ^ (t + (53 - fe))). now apply zq_p2_int. }
  destruct Hint as [z Hz]. rewrite Hz, round_he_zq, <- Hz.
  rewrite <- Qcmult_assoc, p2_sub_add. replace (53 - fe + - (53 - fe)) with 0 by lia.
  rewrite p2_0. ring.
Qed.

Lemma fround_err q : (qabs (fround q - q) <= p2 (-53) * qabs q)%Qc.
Proof.
  destruct (Qc_eq_dec q (zq 0)) as [->|Hq].
  { rewrite fround_0. replace (zq 0 - zq 0)%Qc with (zq 0) by (rewrite zq_0; ring).
    change (qabs (zq 0)) with (zq 0). rewrite zq_0. qc_push. change (this 0%Qc) with 0%Q. lra. }
  destruct (frexp_spec q Hq) as [H1 H2]. unfold fround. set (fe := frexp_e q) in *.
  pose proof (round_he_err (q * p2 (53 - fe))%Qc) as H.
  set (r := round_he (q * p2 (53 - fe))) in *.
  replace (zq r * p2 (- (53 - fe)) - q)%Qc with ((zq r - q * p2 (53 - fe)) * p2 (- (53 - fe)))%Qc.
  2: { rewrite p2_opp. field. apply p2_nz. }
  rewrite qabs_mul, qabs_p2.
  replace (- (53 - fe)) with ((-52) + (fe - 1)) by lia.
  assert (E : p2 (-53) = (p2 (-1) * p2 (-52))%Qc) by (rewrite p2_sub_add; reflexivity).
  rewrite E, p2_add. pose proof (p2_pos (fe - 1)). pose proof (p2_pos (-52)). pose proof (p2_pos (-1)).
  pose proof (qabs_nonneg (zq r - q * p2 (53 - fe))%Qc).
  set (u := qabs (zq r - q * p2 (53 - fe))%Qc) in *. set (P := p2 (fe - 1)) in *. set (A := qabs q) in *.
  set (a := p2 (-1)) in *. set (b := p2 (-52)) in *. clearbody u P A a b. clear - H H1 H0 H3 H4 H5.
  assert (X : (u * P <= a * A)%Qc) by (qc_push; nra).
  qc_push. nra.
Qed.

Lemma int_to_float_small z : Z.abs z <= 2 ^ 53 -> int_to_float z = Ok (zq z).
Proof.
  intros H. unfold int_to_float. assert (2 ^ 53 < float_limit) by reflexivity.
  rewrite (proj2 (Z.leb_gt _ _)) by lia. f_equal.
  pose proof (fround_exact z 0 H) as E. rewrite p2_0 in E. rewrite Qcmult_1_r in E. exact E.
Qed.

Lemma double_int_to_float k t z : Z.abs k < 2 ^ 53 -> zq z = (zq k * p2 t)%Qc -> Z.abs z < float_limit ->
  int_to_float z = Ok (zq z).
Proof.
  intros Hk E Hl. unfold int_to_float. rewrite (proj2 (Z.leb_gt _ _)) by lia. f_equal.
  rewrite E. apply fround_exact. lia.
Qed.

(** ** Decoding *)
Lemma p2_16 e : 0 <= e -> p2 (4 * e) = zq (16 ^ e).
Proof.
  intros H. rewrite p2_nonneg by lia. f_equal. change 16 with (2 ^ 4). rewrite <- Z.pow_mul_r by lia. reflexivity.
Qed.

Lemma fp_mant_unique x m m' : fp_mant x m -> fp_mant x m' -> m = m'.
Proof.
  intros (H0 & H1 & H2 & H3) (_ & _ & H5 & H6). rewrite H3 in H6.
  apply Zmod_eq in H6 || idtac.
  pose proof (Z.div_mod m (fp_n x)) as E1. pose proof (Z.div_mod m' (fp_n x)) as E2.
  rewrite H6 in E1. assert ((m / fp_n x - m' / fp_n x) * fp_n x = m - m') by nia.
  destruct (Z.eq_dec (m / fp_n x) (m' / fp_n x)) as [E|E]; [nia|].
  assert (1 <= Z.abs (m / fp_n x - m' / fp_n x)) by lia. nia.
Qed.

Definition decode_mant (m e : Z) : res pynum :=
  if e <=? 0 then Ok (PyInt (m * 16 ^ (- e)))
  else f ← int_to_float m; Ok (PyFloat (f * p2 (- (4 * e)))%Qc).

Lemma fp_decode_mant x m : fp_mant x m -> fp_decode x = decode_mant m (fp_exp x).
Proof.
  intros (H0 & H1 & H2 & H3). unfold fp_decode, decode_mant.
  assert (Hn : 0 < fp_n x) by lia.
  destruct (Z_lt_le_dec m 0) as [Hneg|Hpos].
  - assert (E : fp_enc x = m + fp_n x).
    { rewrite H3. symmetry. apply (Z.mod_unique _ _ (-1)); lia. }
    rewrite (proj2 (Z.leb_gt (fp_n x) _)) by lia. rewrite (proj2 (Z.leb_gt (fp_enc x) _)) by lia.
    rewrite (proj2 (Z.leb_le _ (fp_enc x))) by lia. replace (fp_enc x - fp_n x) with m by lia. reflexivity.
  - assert (E : fp_enc x = m) by (rewrite H3; apply Z.mod_small; lia).
    rewrite (proj2 (Z.leb_gt (fp_n x) _)) by lia. rewrite (proj2 (Z.leb_le (fp_enc x) _)) by lia.
    rewrite E. reflexivity.
Qed.

Lemma decode_mant_small m e : Z.abs m <= 2 ^ 53 ->
  exists v, decode_mant m e = Ok v /\ num v = (zq m * p2 (- (4 * e)))%Qc
            /\ (match v with PyInt _ => e <= 0 | PyFloat _ => 0 < e end).
Proof.
  intros H. unfold decode_mant. destruct (e <=? 0) eqn:E.
  - eexists. split; [reflexivity|]. cbn. split; [|lia].
    rewrite zq_mul, <- p2_16 by lia. do 2 f_equal. lia.
  - rewrite int_to_float_small by exact H. eexists. split; [reflexivity|]. cbn. split; [reflexivity|lia].
Qed.

Lemma decode_mant_int m e : e <= 0 -> decode_mant m e = Ok (PyInt (m * 16 ^ (- e))).
Proof. intros H. unfold decode_mant. now rewrite (proj2 (Z.leb_le _ _)) by lia. Qed.

Lemma encode_mant n mx i : 0 <= mx -> 2 * mx < n -> Z.abs i <= mx -> forall e, fp_mant (FP (i mod n) e n mx) i.
Proof. intros. unfold fp_mant. cbn. auto. Qed.

(** ** Encoding floats *)
Lemma scaled_float_ok q e i : scaled_round (PyFloat q) e = Ok i ->
  e < 256 /\ (qabs (q * p2 (4 * e)) < p2 1024)%Qc /\ i = round_he (q * p2 (4 * e)).
Proof.
  unfold scaled_round. destruct (256 <=? e) eqn:E1; [discriminate|].
  destruct (qleb (p2 1024) _) eqn:E2; [discriminate|]. intros [= <-].
  apply qleb_false in E2. repeat split; [lia|exact E2].
Qed.

Lemma double_mult_bound (k P M : Z) : 0 < P -> Z.abs k * P < M * P -> Z.abs k <= M - 1.
Proof. intros HP H. nia. Qed.

Lemma float_limit_eq : float_limit = (2 ^ 53 - 1) * 2 ^ 971 + 2 ^ 970.
Proof. vm_compute. reflexivity. Qed.

Lemma double_below_limit k s : Z.abs k < 2 ^ 53 -> 0 <= s -> Z.abs (k * 2 ^ s) < 2 ^ 1024 ->
  Z.abs (k * 2 ^ s) < float_limit.
Proof.
  intros Hk Hs Hb. rewrite float_limit_eq.
  assert (P0 : 0 < 2 ^ 970) by (vm_compute; reflexivity).
  rewrite Z.abs_mul, (Z.abs_eq (2 ^ s)) in * by (apply Z.pow_nonneg; lia).
  destruct (Z_lt_le_dec s 971) as [Hlt|Hge].
  - assert (2 ^ s <= 2 ^ 971) by (apply Z.pow_le_mono_r; lia).
    assert (0 < 2 ^ s) by (apply Z.pow_pos_nonneg; lia).
    set (P := 2 ^ 971) in *. set (R := 2 ^ 970) in *. clearbody P R. nia.
  - replace s with ((s - 971) + 971) in * by lia. rewrite Z.pow_add_r in * by lia.
    replace (2 ^ 1024) with (2 ^ 53 * 2 ^ 971) in Hb by (vm_compute; reflexivity).
    assert (P1 : 0 < 2 ^ 971) by (vm_compute; reflexivity).
    rewrite Z.mul_assoc in *.
    set (P := 2 ^ 971) in *. set (R := 2 ^ 970) in *. clearbody P R.
    apply Z.mul_lt_mono_pos_r in Hb; [|exact P1].
    set (a := Z.abs k * 2 ^ (s - 971)) in *. clearbody a.
    assert (a * P <= (2 ^ 53 - 1) * P) by (apply Z.mul_le_mono_nonneg_r; lia). lia.
Qed.

Lemma double_scaled_decode q e i : is_double q -> scaled_round (PyFloat q) e = Ok i ->
  exists v, decode_mant i e = Ok v /\ num v = (zq i * p2 (- (4 * e)))%Qc.
Proof.
  intros (k & t & Hk & ->) H. apply scaled_float_ok in H as (He & Hb & ->).
  rewrite <- Qcmult_assoc, p2_sub_add in *.
  destruct (Z_lt_le_dec (t + 4 * e) 0) as [Hneg|Hpos].
  - assert (B : Z.abs (round_he (zq k * p2 (t + 4 * e))) <= 2 ^ 53).
    { apply round_he_bound. rewrite qabs_mul, qabs_zq, qabs_p2.
      apply Qcle_trans with (zq (Z.abs k)).
      - assert (p2 (t + 4 * e) <= p2 0)%Qc by (apply p2_le; lia). rewrite p2_0 in H.
        assert (0 <= zq (Z.abs k))%Qc by (rewrite <- zq_0; apply zq_le; lia).
        qc_push. nra.
      - apply zq_le. lia. }
    destruct (decode_mant_small _ e B) as (v & H1 & H2 & _). eauto.
  - rewrite zq_p2_int in * by lia. rewrite round_he_zq.
    rewrite qabs_zq, p2_nonneg, zq_lt in Hb by lia.
    unfold decode_mant. destruct (e <=? 0) eqn:E.
    + eexists. split; [reflexivity|]. cbn. rewrite zq_mul, <- p2_16 by lia. do 2 f_equal. lia.
    + rewrite (double_int_to_float k (t + 4 * e)).
      * eexists. split; [reflexivity|]. reflexivity.
      * exact Hk.
      * now rewrite zq_p2_int by lia.
      * now apply double_below_limit.
Qed.

Lemma zero_scaled e i : scaled_round (PyInt 0) e = Ok i -> i = 0.
Proof.
  unfold scaled_round. destruct (0 <=? e); [intros [= <-]; reflexivity|].
  rewrite int_to_float_small by (cbn; lia). cbn [mbind res_bind].
  replace (zq 0 * p2 (4 * e))%Qc with (zq 0) by (rewrite zq_0; ring).
  intros [= <-]. apply (round_he_zq 0).
Qed.

Lemma decode_mant_0 e : exists v, decode_mant 0 e = Ok v /\ num v = zq 0.
Proof.
  destruct (decode_mant_small 0 e) as (v & H1 & H2 & _); [cbn; lia|].
  exists v. split; [exact H1|]. rewrite H2, zq_0. ring.
Qed.

Lemma scaled_float_err q e i : scaled_round (PyFloat q) e = Ok i ->
  (qabs (zq i * p2 (- (4 * e)) - q) <= p2 (-1) * p2 (- (4 * e)))%Qc.
Proof.
  intros (_ & _ & ->)%scaled_float_ok.
  pose proof (round_he_err (q * p2 (4 * e))%Qc) as H.
  replace (zq (round_he (q * p2 (4 * e))) * p2 (- (4 * e)) - q)%Qc
    with ((zq (round_he (q * p2 (4 * e))) - q * p2 (4 * e)) * p2 (- (4 * e)))%Qc.
  2: { rewrite p2_opp. field. apply p2_nz. }
  rewrite qabs_mul, qabs_p2. pose proof (p2_pos (- (4 * e))). qc_push. nra.
Qed.

Lemma tiny_pos : (zq 0 < tiny)%Qc.
Proof. vm_compute. reflexivity. Qed.

Lemma tiny_big q : (tiny <= qabs q)%Qc -> q <> zq 0.
Proof.
  intros H ->. change (qabs (zq 0)) with (zq 0) in H. pose proof tiny_pos. clear - H H0.
  apply (Qcle_not_lt _ _ H H0).
Qed.

Lemma rel_half_unit q e : q <> zq 0 -> (53 - frexp_e q) / 4 <= e ->
  (p2 (-1) * p2 (- (4 * e)) <= p2 (-50) * qabs q)%Qc.
Proof.
  intros Hq He. destruct (frexp_spec q Hq) as [H1 _].
  rewrite p2_sub_add.
  apply Qcle_trans with (p2 (-50) * p2 (frexp_e q - 1))%Qc.
  - rewrite p2_sub_add. apply p2_le.
    pose proof (Z.div_mod (53 - frexp_e q) 4). pose proof (Z.mod_pos_bound (53 - frexp_e q) 4). lia.
  - pose proof (p2_pos (-50)). qc_push. nra.
Qed.

Lemma qltb_ge a b : (b <= a)%Qc -> qltb a b = false.
Proof. apply qltb_false. Qed.

Lemma encode_float_sound q n mx prec me f :
  is_double q -> 0 <= mx -> 2 * mx < n ->
  fp_encode (PyFloat q) (Some (n, mx)) prec me = Ok f ->
  exists v, fp_decode f = Ok v /\ fp_holds f (num v)
    /\ ((qabs q < tiny)%Qc -> num v = zq 0)
    /\ ((tiny <= qabs q)%Qc ->
          (qabs (num v - q) <= p2 (-1) * p2 (- (4 * fp_exp f)))%Qc
          /\ (prec = None -> (qabs (num v - q) <= p2 (-50) * qabs q)%Qc)).
Proof.
  intros Hd H0 H1. unfold fp_encode. cbn [num].
  destruct (qltb (qabs q) tiny) eqn:Et.
  - set (e := match me with Some m => _ | None => _ end). clearbody e.
    destruct (scaled_round (PyInt 0) e) as [i|] eqn:Es; [|discriminate].
    cbn [mbind res_bind]. destruct (mx <? Z.abs i) eqn:Ei; [discriminate|]. intros [= <-].
    apply zero_scaled in Es. subst i.
    pose proof (encode_mant n mx 0 H0 H1 H0 e) as Hm.
    destruct (decode_mant_0 e) as (v & Hv & Hn). exists v.
    rewrite (fp_decode_mant _ _ Hm). split; [exact Hv|]. split; [|split].
    + exists 0. split; [exact Hm|]. rewrite Hn, zq_0. ring.
    + intros _. exact Hn.
    + intros Hc. apply qltb_true in Et. exfalso. qlra.
  - set (e := match me with Some m => _ | None => _ end).
    destruct (scaled_round (PyFloat q) e) as [i|] eqn:Es; [|discriminate].
    cbn [mbind res_bind]. destruct (mx <? Z.abs i) eqn:Ei; [discriminate|]. intros [= <-].
    assert (Hi : Z.abs i <= mx) by lia.
    pose proof (encode_mant n mx i H0 H1 Hi e) as Hm.
    destruct (double_scaled_decode q e i Hd Es) as (v & Hv & Hn). exists v.
    rewrite (fp_decode_mant _ _ Hm). split; [exact Hv|]. split; [|split].
    + exists i. split; [exact Hm|exact Hn].
    + intros Hc. apply qltb_false in Et. exfalso. qlra.
    + intros Hc. cbn [fp_exp]. rewrite Hn.
      pose proof (scaled_float_err q e i Es) as He. split; [exact He|].
      intros ->. eapply Qcle_trans; [exact He|]. apply rel_half_unit.
      * now apply tiny_big.
      * subst e. destruct me; lia.
Qed.

Lemma tiny_frexp q : (tiny <= qabs q)%Qc -> -664 <= frexp_e q.
Proof.
  intros H. destruct (frexp_spec q (tiny_big q H)) as [_ H2].
  assert (Ht : (p2 (-665) < tiny)%Qc) by (vm_compute; reflexivity).
  assert (H3 : (p2 (-665) < p2 (frexp_e q))%Qc).
  { eapply Qclt_le_trans; [exact Ht|]. eapply Qcle_trans; [exact H|]. now apply Qclt_le_weak. }
  apply p2_lt_inv in H3. lia.
Qed.

Lemma encode_float_total q n mx :
  2 ^ 53 <= mx ->
  exists f, fp_encode (PyFloat q) (Some (n, mx)) None None = Ok f
    /\ fp_n f = n /\ fp_max f = mx /\ fp_exp f <= 179
    /\ ((tiny <= qabs q)%Qc -> (qabs q <= zq 1)%Qc -> 13 <= fp_exp f)
    /\ ((qabs q < tiny)%Qc -> fp_exp f = 0).
Proof.
  intros Hmx. unfold fp_encode. cbn [num].
  destruct (qltb (qabs q) tiny) eqn:Et.
  - assert (S : scaled_round (PyInt 0) 0 = Ok 0) by reflexivity. cbv zeta iota. rewrite S. cbn [mbind res_bind Z.abs].
    rewrite (proj2 (Z.ltb_ge _ _)) by lia. eexists. split; [reflexivity|]. cbn [fp_n fp_max fp_exp].
    repeat split; try lia. intros Hc. apply qltb_true in Et. exfalso. qlra.
  - apply qltb_false in Et. pose proof (tiny_frexp q Et) as Hfe.
    destruct (frexp_spec q (tiny_big q Et)) as [Hf1 Hf2].
    set (e := (53 - frexp_e q) / 4).
    assert (He : 4 * e <= 53 - frexp_e q < 4 * e + 4).
    { unfold e. pose proof (Z.div_mod (53 - frexp_e q) 4). pose proof (Z.mod_pos_bound (53 - frexp_e q) 4). lia. }
    assert (Hb : (qabs (q * p2 (4 * e)) <= zq (2 ^ 53))%Qc).
    { rewrite qabs_mul, qabs_p2. rewrite <- (p2_nonneg 53) by lia.
      apply Qcle_trans with (p2 (frexp_e q) * p2 (4 * e))%Qc.
      - pose proof (p2_pos (4 * e)). qc_push. nra.
      - rewrite p2_sub_add. apply p2_le. lia. }
    assert (Hs : scaled_round (PyFloat q) e = Ok (round_he (q * p2 (4 * e)))).
    { unfold scaled_round. rewrite (proj2 (Z.leb_gt 256 e)) by lia.
      rewrite (proj2 (qleb_false _ _)); [reflexivity|].
      eapply Qcle_lt_trans; [exact Hb|]. rewrite <- (p2_nonneg 53) by lia. apply p2_lt. lia. }
    rewrite Hs. cbn [mbind res_bind]. pose proof (round_he_bound _ _ Hb) as Hr.
    rewrite (proj2 (Z.ltb_ge _ _)) by lia.
    eexists. split; [reflexivity|]. cbn [fp_n fp_max fp_exp]. repeat split; try lia.
    + intros _ H1.
      assert (H : (p2 (frexp_e q - 1) < p2 1)%Qc).
      { eapply Qcle_lt_trans; [exact Hf1|]. eapply Qcle_lt_trans; [exact H1|]. vm_compute. reflexivity. }
      apply p2_lt_inv in H. lia.
    + intros Hc. exfalso. qlra.
Qed.

(** ** Encoding integers *)
Lemma int_not_tiny z : z <> 0 -> qltb (qabs (zq z)) tiny = false.
Proof.
  intros Hz. apply qltb_false. rewrite qabs_zq. apply Qcle_trans with (zq 1).
  - vm_compute. discriminate.
  - apply zq_le. lia.
Qed.

Lemma int_preprocess z : (if qltb (qabs (num (PyInt z))) tiny then PyInt 0 else PyInt z) = PyInt z.
Proof.
  destruct (Z.eq_dec z 0) as [->|Hz]; [now destruct (qltb _ _)|].
  cbn [num]. now rewrite int_not_tiny.
Qed.

Definition int_exp (me : option Z) : Z := match me with None => 0 | Some m => Z.max m 0 end.

Lemma encode_int z n mx me : 0 <= mx -> 2 * mx < n ->
  fp_encode (PyInt z) (Some (n, mx)) None me =
    if Z.abs z * 16 ^ int_exp me <=? mx
    then Ok (FP ((z * 16 ^ int_exp me) mod n) (int_exp me) n mx)
    else Err ValueError.
Proof.
  intros H0 H1. unfold fp_encode. rewrite int_preprocess.
  assert (E : match me with Some m => Z.max m 0 | None => 0 end = int_exp me) by reflexivity.
  rewrite E. assert (0 <= int_exp me) by (unfold int_exp; destruct me; lia).
  unfold scaled_round. rewrite (proj2 (Z.leb_le 0 _)) by lia. cbn [mbind res_bind].
  rewrite Z.abs_mul, (Z.abs_eq (16 ^ _)) by (apply Z.pow_nonneg; lia).
  destruct (mx <? _) eqn:Ea, (_ <=? mx) eqn:Eb; try reflexivity; lia.
Qed.

Lemma fround_zq_scale z e : 0 <= e -> (fround (zq (z * 16 ^ e)) * p2 (- (4 * e)))%Qc = fround (zq z).
Proof.
  intros He.
  destruct (Z.eq_dec z 0) as [->|Hz].
  { rewrite Z.mul_0_l, fround_0, zq_0. ring. }
  rewrite zq_mul, <- p2_16 by lia.
  assert (Hq : zq z <> zq 0) by (intros E%zq_inj; contradiction).
  assert (Hfe : frexp_e (zq z * p2 (4 * e)) = frexp_e (zq z) + 4 * e).
  { destruct (frexp_spec _ Hq) as [H1 H2].
    assert (Hq2 : (zq z * p2 (4 * e))%Qc <> zq 0).
    { rewrite zq_0 in *. intros E. apply Qcmult_integral in E as [E|E]; [contradiction|now apply p2_nz in E]. }
    destruct (frexp_spec _ Hq2) as [H3 H4]. rewrite qabs_mul, qabs_p2 in H3, H4.
    set (a := frexp_e (zq z)) in *. set (b := frexp_e (zq z * p2 (4 * e))) in *.
    assert (A1 : (p2 (a - 1 + 4 * e) < p2 b)%Qc).
    { eapply Qcle_lt_trans; [|exact H4]. rewrite p2_add. pose proof (p2_pos (4 * e)). qc_push. nra. }
    assert (A2 : (p2 (b - 1) < p2 (a + 4 * e))%Qc).
    { eapply Qcle_lt_trans; [exact H3|]. rewrite p2_add. pose proof (p2_pos (4 * e)). qc_push. nra. }
    apply p2_lt_inv in A1, A2. lia. }
  unfold fround. rewrite Hfe.
  rewrite <- (Qcmult_assoc (zq z)), p2_sub_add.
  replace (4 * e + (53 - (frexp_e (zq z) + 4 * e))) with (53 - frexp_e (zq z)) by lia.
  rewrite <- Qcmult_assoc, p2_sub_add. do 2 f_equal. lia.
Qed.

Lemma encode_decode_int z n mx me : 0 <= mx -> 2 * mx < n -> Z.abs z * 16 ^ int_exp me <= mx ->
  exists f, fp_encode (PyInt z) (Some (n, mx)) None me = Ok f /\ fp_holds f (zq z)
    /\ fp_exp f = int_exp me
    /\ (int_exp me = 0 -> fp_decode f = Ok (PyInt z))
    /\ (0 < int_exp me -> Z.abs z * 16 ^ int_exp me < float_limit ->
          exists v, fp_decode f = Ok (PyFloat v) /\ (qabs (v - zq z) <= p2 (-53) * qabs (zq z))%Qc
                    /\ (is_double (zq z) -> v = zq z))
    /\ (0 < int_exp me -> float_limit <= Z.abs z * 16 ^ int_exp me -> fp_decode f = Err OverflowError).
Proof.
  intros H0 H1 H2. assert (He : 0 <= int_exp me) by (unfold int_exp; destruct me; lia).
  assert (Hp : 0 < 16 ^ int_exp me) by (apply Z.pow_pos_nonneg; lia).
  eexists. split; [rewrite encode_int, (proj2 (Z.leb_le _ mx)) by lia; reflexivity|].
  set (e := int_exp me) in *. clearbody e.
  assert (Hm : fp_mant (FP ((z * 16 ^ e) mod n) e n mx) (z * 16 ^ e)).
  { apply encode_mant; [lia..|]. rewrite Z.abs_mul, (Z.abs_eq (16 ^ e)) by lia. lia. }
  split; [|split; [reflexivity|]].
  { exists (z * 16 ^ e). split; [exact Hm|]. cbn [fp_exp].
    rewrite zq_mul, <- p2_16 by lia. rewrite <- Qcmult_assoc, p2_sub_add.
    replace (4 * e + - (4 * e)) with 0 by lia. rewrite p2_0. ring. }
  rewrite (fp_decode_mant _ _ Hm). cbn [fp_exp].
  split; [|split].
  - intros ->. rewrite decode_mant_int by lia. do 2 f_equal. cbn. lia.
  - intros Hpos Hl. unfold decode_mant. rewrite (proj2 (Z.leb_gt e 0)) by lia.
    unfold int_to_float. rewrite Z.abs_mul, (Z.abs_eq (16 ^ e)) by lia.
    rewrite (proj2 (Z.leb_gt _ _)) by lia. cbn [mbind res_bind].
    rewrite fround_zq_scale by lia. eexists. split; [reflexivity|]. split; [apply fround_err|].
    intros (k & t & Hk & E). rewrite E. apply fround_exact. lia.
  - intros Hpos Hl. unfold decode_mant. rewrite (proj2 (Z.leb_gt e 0)) by lia.
    unfold int_to_float. rewrite Z.abs_mul, (Z.abs_eq (16 ^ e)) by lia.
    rewrite (proj2 (Z.leb_le _ _)) by lia. reflexivity.
Qed.

(** ** Arithmetic with the class constants *)
Lemma Qmax_ok : 0 <= Qmax /\ 2 * Qmax < Qmod /\ 2 ^ 53 <= Qmax.
Proof. vm_compute. repeat split; discriminate. Qed.

Lemma fp_default_mant i e : Z.abs i <= Qmax -> fp_mant (fp_default (i mod Qmod) e) i.
Proof. intros H. pose proof Qmax_ok. unfold fp_mant, fp_default. cbn [fp_enc fp_n fp_max]. lia. Qed.

Lemma fp_mant_congr x m : fp_mant x m -> exists k, fp_enc x = m + k * fp_n x.
Proof.
  intros (H0 & H1 & _ & ->). exists (- (m / fp_n x)). pose proof (Z.div_mod m (fp_n x)). lia.
Qed.

Lemma mod_congr a b k n : n <> 0 -> a = b + k * n -> a mod n = b mod n.
Proof. intros Hn ->. now apply Z.mod_add. Qed.

Lemma mod_congr_ex a n : n <> 0 -> exists k, a mod n = a + k * n.
Proof. intros Hn. exists (- (a / n)). pose proof (Z.div_mod a n). lia. Qed.

Lemma zq_scale m e E : e <= E -> (zq m * p2 (- (4 * e)))%Qc = (zq (m * 16 ^ (E - e)) * p2 (- (4 * E)))%Qc.
Proof.
  intros H. rewrite zq_mul, <- p2_16 by lia. rewrite <- Qcmult_assoc, p2_sub_add. do 2 f_equal. lia.
Qed.

Lemma zq_unscale_le M E B : (qabs (zq M * p2 (- (4 * E))) <= zq B * p2 (- (4 * E)))%Qc -> Z.abs M <= B.
Proof.
  intros H. rewrite qabs_mul, qabs_zq, qabs_p2 in H. apply Qc_mul_le_r in H; [|apply p2_pos].
  now rewrite zq_le in H.
Qed.

Lemma fp_add_ok x y qx qy :
  fp_std x -> fp_std y -> fp_holds x qx -> fp_holds y qy ->
  (qabs (qx + qy) <= zq Qmax * p2 (- (4 * Z.max (fp_exp x) (fp_exp y))))%Qc ->
  exists r, fp_add_fp x y = Ok r /\ fp_std r /\ fp_exp r = Z.max (fp_exp x) (fp_exp y)
            /\ fp_holds r (qx + qy)%Qc.
Proof.
  intros [Nx _] [Ny _] (mx & Hx & ->) (my & Hy & ->).
  set (E := Z.max (fp_exp x) (fp_exp y)).
  rewrite (zq_scale mx _ E) by lia. rewrite (zq_scale my _ E) by lia.
  set (M := mx * 16 ^ (E - fp_exp x) + my * 16 ^ (E - fp_exp y)).
  assert (EM : (zq (mx * 16 ^ (E - fp_exp x)) * p2 (- (4 * E)) + zq (my * 16 ^ (E - fp_exp y)) * p2 (- (4 * E)))%Qc
     = (zq M * p2 (- (4 * E)))%Qc) by (unfold M; rewrite zq_add; ring).
  rewrite EM. intros HM%zq_unscale_le.
  destruct (fp_mant_congr x mx Hx) as [kx Ex]. destruct (fp_mant_congr y my Hy) as [ky Ey].
  rewrite Nx in Ex. rewrite Ny in Ey.
  assert (HQ : Qmod <> 0) by discriminate.
  assert (R : exists k, fp_add_fp x y = Ok (fp_default ((M + k * Qmod) mod Qmod) E)).
  { unfold fp_add_fp, fp_align, fp_increase.
    destruct (fp_exp x <? fp_exp y) eqn:E1.
    - rewrite (proj2 (Z.ltb_ge (fp_exp y) (fp_exp x))) by lia. cbn [mbind res_bind fp_enc fp_exp].
      assert (EE : E = fp_exp y) by lia.
      rewrite Nx. destruct (mod_congr_ex (fp_enc x * 16 ^ (fp_exp y - fp_exp x)) Qmod HQ) as [k1 ->].
      exists (kx * 16 ^ (fp_exp y - fp_exp x) + k1 + ky). rewrite EE. do 3 f_equal.
      unfold M. rewrite EE, Ex, Ey, Z.sub_diag, Z.pow_0_r. ring.
    - destruct (fp_exp y <? fp_exp x) eqn:E2.
      + cbn [mbind res_bind fp_enc fp_exp].
        assert (EE : E = fp_exp x) by lia. 
        cbn [mbind res_bind fp_enc fp_exp].
        rewrite Ny. destruct (mod_congr_ex (fp_enc y * 16 ^ (fp_exp x - fp_exp y)) Qmod HQ) as [k1 ->].
        exists (ky * 16 ^ (fp_exp x - fp_exp y) + k1 + kx). rewrite EE. do 3 f_equal.
        unfold M. rewrite EE, Ex, Ey, Z.sub_diag, Z.pow_0_r. ring.
      + cbn [mbind res_bind fp_enc fp_exp].
        assert (EE : E = fp_exp x) by lia. assert (EE2 : fp_exp y = fp_exp x) by lia.
        exists (kx + ky). rewrite EE. do 3 f_equal.
        unfold M. rewrite EE, EE2, Ex, Ey, Z.sub_diag, Z.pow_0_r. ring. }
  destruct R as [k ->]. eexists. split; [reflexivity|]. split; [split; reflexivity|]. split; [reflexivity|].
  exists M. split; [|reflexivity]. rewrite Z.mod_add by exact HQ. now apply fp_default_mant.
Qed.

Lemma encode_int_std z : Z.abs z <= Qmax ->
  fp_encode (PyInt z) None None None = Ok (fp_default (z mod Qmod) 0).
Proof.
  intros H. pose proof Qmax_ok as (H0 & H1 & _).
  change (fp_encode (PyInt z) None None None) with (fp_encode (PyInt z) (Some (Qmod, Qmax)) None None).
  rewrite encode_int by assumption. cbn [int_exp]. rewrite Z.pow_0_r, !Z.mul_1_r.
  now rewrite (proj2 (Z.leb_le _ _)).
Qed.

Lemma encode_exact_std v m e :
  Z.abs m <= 2 ^ 53 -> num v = (zq m * p2 (- (4 * e)))%Qc ->
  (num v = zq 0 \/ (tiny <= qabs (num v))%Qc) -> (qabs (num v) <= zq Qmax)%Qc ->
  exists f, fp_encode v None None None = Ok f /\ fp_std f /\ fp_holds f (num v)
    /\ (forall E, 0 <= E -> (num v = zq 0 \/ (zq (2 ^ 53) <= qabs (num v) * p2 (4 * (E + 1)))%Qc) -> fp_exp f <= E).
Proof.
  intros Hm Hv Ht Hmax. destruct v as [z|q]; cbn [num] in *.
  - rewrite qabs_zq, zq_le in Hmax. rewrite encode_int_std by exact Hmax.
    eexists. split; [reflexivity|]. split; [split; reflexivity|]. split; [|cbn; lia].
    exists z. split; [now apply fp_default_mant|]. change (p2 (- (4 * fp_exp (fp_default (z mod Qmod) 0)))) with (zq 1). rewrite zq_1. ring.
  - change (fp_encode (PyFloat q) None None None) with (fp_encode (PyFloat q) (Some (Qmod, Qmax)) None None).
    pose proof Qmax_ok as (Q0 & Q1 & Q2).
    destruct Ht as [->|Ht].
    + eexists. split; [vm_compute; reflexivity|]. split; [split; reflexivity|].
      split; [|cbn; lia]. exists 0. split; [|reflexivity].
      unfold fp_mant; cbn [fp_enc fp_n fp_max]. rewrite Z.mod_0_l by discriminate. vm_compute.
      repeat split; discriminate.
    + unfold fp_encode. cbn [num]. rewrite (proj2 (qltb_false _ _) Ht).
      pose proof (tiny_big q Ht) as Hq0.
      destruct (frexp_spec q Hq0) as [Hf1 Hf2]. pose proof (tiny_frexp q Ht) as Hfe.
      set (e' := (53 - frexp_e q) / 4).
      assert (He : 4 * e' <= 53 - frexp_e q < 4 * e' + 4).
      { unfold e'. pose proof (Z.div_mod (53 - frexp_e q) 4). pose proof (Z.mod_pos_bound (53 - frexp_e q) 4). lia. }
      assert (Hax : qabs q = (zq (Z.abs m) * p2 (- (4 * e)))%Qc).
      { rewrite Hv. now rewrite qabs_mul, qabs_zq, qabs_p2. }
      assert (Hub : (qabs q <= p2 (53 + - (4 * e)))%Qc).
      { rewrite Hax, p2_add, (p2_nonneg 53) by lia. apply zq_le in Hm. pose proof (p2_pos (- (4 * e))).
        qc_push. nra. }
      assert (Hfe2 : frexp_e q - 1 <= 53 - 4 * e).
      { assert (H3 : (p2 (frexp_e q - 1) < p2 (53 + - (4 * e) + 1))%Qc).
        { eapply Qcle_lt_trans; [exact Hf1|]. eapply Qcle_lt_trans; [exact Hub|]. apply p2_lt. lia. }
        apply p2_lt_inv in H3. lia. }
      assert (Hint : exists z, (q * p2 (4 * e'))%Qc = zq z /\ Z.abs z <= 2 ^ 53).
      { assert (X : exists z, (q * p2 (4 * e'))%Qc = zq z).
        { rewrite Hv, <- Qcmult_assoc, p2_sub_add.
          destruct (Z_lt_le_dec e' e) as [Hlt|Hge].
          - assert (Hm2 : 2 ^ 53 <= Z.abs m).
            { rewrite Hax in Hf1. replace (frexp_e q - 1) with (53 + - (4 * e)) in Hf1 by lia.
              rewrite p2_add in Hf1. apply Qc_mul_le_r in Hf1; [|apply p2_pos].
              rewrite p2_nonneg in Hf1 by lia. now rewrite zq_le in Hf1. }
            exists (m / 16). replace (- (4 * e) + 4 * e') with (-4) by lia.
            assert (Hm16 : m mod 16 = 0).
            { assert (Z.abs m = 2 ^ 53) by lia. destruct (Z.abs_eq_or_opp m) as [E|E].
              - now replace m with (2 ^ 53) by lia.
              - now replace m with (- 2 ^ 53) by lia. }
            assert (E4 : p2 (-4) = (/ zq 16)%Qc) by reflexivity.
            rewrite E4. rewrite (Z.div_mod m 16) at 1 by lia. rewrite Hm16, Z.add_0_r, zq_mul. field.
            intros E. rewrite <- zq_0 in E. apply zq_inj in E. discriminate.
          - eexists. apply zq_p2_int. lia. }
        destruct X as [z Hz]. exists z. split; [exact Hz|].
        apply zq_le. rewrite <- qabs_zq, <- Hz, qabs_mul, qabs_p2, <- (p2_nonneg 53) by lia.
        apply Qcle_trans with (p2 (frexp_e q) * p2 (4 * e'))%Qc.
        - pose proof (p2_pos (4 * e')). qc_push. nra.
        - rewrite p2_sub_add. apply p2_le. lia. }
      destruct Hint as (z & Hz & Hzb).
      assert (Hs : scaled_round (PyFloat q) e' = Ok z).
      { unfold scaled_round. rewrite (proj2 (Z.leb_gt 256 e')) by lia.
        rewrite Hz, round_he_zq. rewrite (proj2 (qleb_false _ _)); [reflexivity|].
        rewrite qabs_zq, p2_nonneg, zq_lt by lia.
        eapply Z.le_lt_trans; [exact Hzb|vm_compute; reflexivity]. }
      rewrite Hs. cbn [mbind res_bind]. rewrite (proj2 (Z.ltb_ge _ _)) by lia.
      eexists. split; [reflexivity|]. split; [split; reflexivity|]. split.
      * exists z. split; [apply encode_mant; lia|]. cbn [fp_exp]. rewrite <- Hz, <- Qcmult_assoc, p2_sub_add.
        replace (4 * e' + - (4 * e')) with 0 by lia. rewrite p2_0. ring.
      * cbn [fp_exp]. intros E HE [H|H]; [contradiction|].
        assert (H3 : (p2 53 < p2 (frexp_e q + 4 * (E + 1)))%Qc).
        { rewrite (p2_nonneg 53) by lia. eapply Qcle_lt_trans; [exact H|]. rewrite p2_add.
          pose proof (p2_pos (4 * (E + 1))). qc_push. nra. }
        apply p2_lt_inv in H3. lia.
Qed.

Lemma num_py_neg v : num (py_neg v) = (- num v)%Qc.
Proof. destruct v; cbn; [apply zq_opp|reflexivity]. Qed.

Lemma neg_back_ok y m q : fp_mant y m -> Z.abs m <= 2 ^ 53 -> q = (zq m * p2 (- (4 * fp_exp y)))%Qc ->
  (q = zq 0 \/ (tiny <= qabs q)%Qc) -> (qabs q <= zq Qmax)%Qc ->
  exists v f, fp_decode y = Ok v /\ num v = q /\ fp_encode (py_neg v) None None None = Ok f
    /\ fp_std f /\ fp_holds f (- q)%Qc
    /\ (forall E, 0 <= E -> (q = zq 0 \/ (zq (2 ^ 53) <= qabs q * p2 (4 * (E + 1)))%Qc) -> fp_exp f <= E).
Proof.
  intros Hy Hm Hq Ht Hx.
  destruct (decode_mant_small m (fp_exp y) Hm) as (v & Hv & Hn & _).
  rewrite <- Hq in Hn.
  destruct (encode_exact_std (py_neg v) (- m) (fp_exp y)) as (f & Hf & Hs & Hh & HE).
  - lia.
  - rewrite num_py_neg, Hn, Hq, zq_opp. ring.
  - rewrite num_py_neg, Hn, qabs_opp. destruct Ht as [->|Ht]; [left|right; exact Ht].
    rewrite <- zq_opp. reflexivity.
  - now rewrite num_py_neg, Hn, qabs_opp.
  - exists v, f. rewrite num_py_neg, Hn in Hh. rewrite num_py_neg, Hn, qabs_opp in HE.
    split; [now rewrite (fp_decode_mant _ _ Hy)|]. split; [exact Hn|]. split; [exact Hf|].
    split; [exact Hs|]. split; [exact Hh|].
    intros E HE0 HE1. apply HE; [exact HE0|]. destruct HE1 as [->|HE1]; [left|right; exact HE1].
    rewrite <- zq_opp. reflexivity.
Qed.

Lemma fp_add_bound_mono x y qx qy E :
  fp_std x -> fp_std y -> fp_holds x qx -> fp_holds y qy ->
  fp_exp x <= E -> fp_exp y <= E ->
  (qabs (qx + qy) <= zq Qmax * p2 (- (4 * E)))%Qc ->
  exists r, fp_add_fp x y = Ok r /\ fp_std r /\ fp_exp r = Z.max (fp_exp x) (fp_exp y)
            /\ fp_holds r (qx + qy)%Qc.
Proof.
  intros Sx Sy Hx Hy Ex Ey H. apply fp_add_ok; try assumption.
  eapply Qcle_trans; [exact H|].
  assert (p2 (- (4 * E)) <= p2 (- (4 * Z.max (fp_exp x) (fp_exp y))))%Qc by (apply p2_le; lia).
  assert (0 <= zq Qmax)%Qc by (rewrite <- zq_0; apply zq_le; apply Qmax_ok).
  qc_push. nra.
Qed.

Lemma fp_sub_ok x y qx m qy E :
  fp_std x -> fp_holds x qx -> fp_mant y m -> Z.abs m <= 2 ^ 53 -> qy = (zq m * p2 (- (4 * fp_exp y)))%Qc ->
  (qy = zq 0 \/ (tiny <= qabs qy)%Qc) -> (qabs qy <= zq Qmax)%Qc ->
  0 <= E -> fp_exp x <= E -> (qy = zq 0 \/ (zq (2 ^ 53) <= qabs qy * p2 (4 * (E + 1)))%Qc) ->
  (qabs (qx - qy) <= zq Qmax * p2 (- (4 * E)))%Qc ->
  exists r, fp_sub_fp x y = Ok r /\ fp_std r /\ fp_holds r (qx - qy)%Qc.
Proof.
  intros Sx Hx Hy Hm Hq Ht Hmx HE1 HE2 HE3 Hb.
  destruct (neg_back_ok y m qy Hy Hm Hq Ht Hmx) as (v & f & Hv & _ & Hf & Sf & Hhf & HfE).
  destruct (fp_add_bound_mono x f qx (- qy) E) as (r & Hr & Sr & _ & Hhr); try assumption.
  - now apply HfE.
  - exists r. split; [|split; [exact Sr|exact Hhr]].
    unfold fp_sub_fp, fp_add_scalar. rewrite Hv. cbn [mbind res_bind]. rewrite Hf. exact Hr.
Qed.

Lemma fp_rsub_ok x s d m q :
  fp_sub_scalar x s = Ok d -> fp_mant d m -> Z.abs m <= 2 ^ 53 -> q = (zq m * p2 (- (4 * fp_exp d)))%Qc ->
  (q = zq 0 \/ (tiny <= qabs q)%Qc) -> (qabs q <= zq Qmax)%Qc ->
  exists r, fp_rsub x s = Ok r /\ fp_std r /\ fp_holds r (- q)%Qc.
Proof.
  intros Hd Hm Hb Hq Ht Hx.
  destruct (neg_back_ok d m q Hm Hb Hq Ht Hx) as (v & f & Hv & _ & Hf & Sf & Hhf & _).
  exists f. unfold fp_rsub. rewrite Hd. cbn [mbind res_bind]. rewrite Hv. cbn [mbind res_bind].
  rewrite Hf. auto.
Qed.

Lemma fp_add_scalar_ok x s y qx qs :
  fp_std x -> fp_holds x qx -> fp_encode s None None None = Ok y -> fp_std y -> fp_holds y qs ->
  (qabs (qx + qs) <= zq Qmax * p2 (- (4 * Z.max (fp_exp x) (fp_exp y))))%Qc ->
  exists r, fp_add_scalar x s = Ok r /\ fp_std r /\ fp_holds r (qx + qs)%Qc.
Proof.
  intros Sx Hx He Sy Hy Hb. destruct (fp_add_ok x y qx qs) as (r & Hr & Sr & _ & Hh); try assumption.
  exists r. unfold fp_add_scalar. rewrite He. auto.
Qed.

(** ** Multiplication *)
Lemma encode_float_std_err q : exists f, fp_encode (PyFloat q) None None None = Ok f /\ fp_std f /\
  exists w, fp_holds f w /\ (qabs (w - q) <= p2 (-50) * qabs q + tiny)%Qc.
Proof.
  change (fp_encode (PyFloat q) None None None) with (fp_encode (PyFloat q) (Some (Qmod, Qmax)) None None).
  pose proof Qmax_ok as (Q0 & Q1 & Q2).
  destruct (encode_float_total q Qmod Qmax Q2) as (f & Hf & N1 & N2 & _).
  exists f. split; [exact Hf|]. split; [split; assumption|].
  unfold fp_encode in Hf. cbn [num] in Hf.
  pose proof (qabs_nonneg q) as Hqn. pose proof (p2_pos (-50)) as Hp. pose proof tiny_pos as Htp.
  rewrite zq_0 in Htp.
  destruct (qltb (qabs q) tiny) eqn:Et.
  - assert (S : scaled_round (PyInt 0) 0 = Ok 0) by reflexivity. cbv zeta iota in Hf. rewrite S in Hf.
    cbn [mbind res_bind Z.abs] in Hf. rewrite (proj2 (Z.ltb_ge _ _)) in Hf by lia. injection Hf as <-.
    exists (zq 0). split.
    + exists 0. split; [apply encode_mant; lia|]. rewrite zq_0. ring.
    + apply qltb_true in Et. replace (zq 0 - q)%Qc with (- q)%Qc by (rewrite zq_0; ring).
      rewrite qabs_opp. qc_push. nra.
  - cbv zeta iota in Hf. apply qltb_false in Et. set (e := (53 - frexp_e q) / 4) in *.
    destruct (scaled_round (PyFloat q) e) as [i|] eqn:Es; [|discriminate]. cbn [mbind res_bind] in Hf.
    destruct (Qmax <? Z.abs i) eqn:Ei; [discriminate|]. injection Hf as <-.
    exists (zq i * p2 (- (4 * e)))%Qc. split.
    + exists i. split; [apply encode_mant; lia|reflexivity].
    + pose proof (scaled_float_err q e i Es) as H1.
      pose proof (rel_half_unit q e (tiny_big q Et) (Z.le_refl _)) as H2.
      qc_push. lra.
Qed.

Lemma fp_mul_ok x y qx qy :
  fp_std x -> fp_std y -> fp_holds x qx -> fp_holds y qy ->
  (qabs (qx * qy) <= zq Qmax * p2 (- (4 * (fp_exp x + fp_exp y))))%Qc ->
  (fp_exp x + fp_exp y <= 0 -> (qabs (qx * qy) <= zq Qmax)%Qc) ->
  exists r w, fp_mul_fp x y = Ok r /\ fp_std r /\ fp_holds r w
    /\ (fp_exp x + fp_exp y <= 0 -> w = (qx * qy)%Qc)
    /\ (qabs (w - qx * qy) <= p2 (-49) * qabs (qx * qy) + tiny)%Qc.
Proof.
  intros [Nx _] [Ny _] (mx & Hx & Eqx) (my & Hy & Eqy) Hb Hb2.
  set (e := fp_exp x + fp_exp y) in *.
  assert (Em : (qx * qy)%Qc = (zq (mx * my) * p2 (- (4 * e)))%Qc).
  { rewrite Eqx, Eqy, zq_mul. replace (- (4 * e)) with (- (4 * fp_exp x) + - (4 * fp_exp y)) by lia.
    rewrite p2_add. ring. }
  rewrite Em in Hb. apply zq_unscale_le in Hb.
  destruct (fp_mant_congr x mx Hx) as [kx Ex]. destruct (fp_mant_congr y my Hy) as [ky Ey].
  rewrite Nx in Ex. rewrite Ny in Ey.
  assert (Emod : (fp_enc x * fp_enc y) mod Qmod = (mx * my) mod Qmod).
  { apply (mod_congr _ _ (mx * ky + kx * my + kx * ky * Qmod)); [discriminate|]. rewrite Ex, Ey. ring. }
  unfold fp_mul_fp. rewrite Emod. fold e.
  rewrite (fp_decode_mant _ _ (fp_default_mant (mx * my) e Hb)). cbn [fp_exp fp_default].
  unfold decode_mant. destruct (e <=? 0) eqn:Ee.
  - cbn [mbind res_bind]. specialize (Hb2 ltac:(lia)).
    assert (Ez : (qx * qy)%Qc = zq (mx * my * 16 ^ (- e))).
    { rewrite Em. rewrite (zq_mul (mx * my)), <- p2_16 by lia. do 2 f_equal. lia. }
    rewrite Ez, qabs_zq, zq_le in Hb2. rewrite encode_int_std by exact Hb2.
    eexists _, (qx * qy)%Qc. split; [reflexivity|]. split; [split; reflexivity|]. split; [|split; [reflexivity|]].
    + exists (mx * my * 16 ^ (- e)). split; [now apply fp_default_mant|]. match goal with |- context [p2 ?a] => change (p2 a) with (zq 1) end.
      rewrite Ez, zq_1. ring.
    + replace (qx * qy - qx * qy)%Qc with (zq 0) by (rewrite zq_0; ring).
      change (qabs (zq 0)) with (zq 0).
      pose proof (qabs_nonneg (qx * qy)%Qc). pose proof (p2_pos (-49)). pose proof tiny_pos.
      rewrite zq_0 in *. set (A := qabs (qx * qy)%Qc) in *. clearbody A.
      clear - H H0 H1. qc_push. nra.
  - unfold int_to_float. assert (Qmax < float_limit) by reflexivity.
    rewrite (proj2 (Z.leb_gt _ _)) by lia. cbn [mbind res_bind].
    destruct (encode_float_std_err (fround (zq (mx * my)) * p2 (- (4 * e)))%Qc) as (f & Hf & Sf & w & Hw & Hwe).
    exists f, w. split; [exact Hf|]. split; [exact Sf|]. split; [exact Hw|]. split; [lia|].
    rewrite Em. pose proof (fround_err (zq (mx * my))) as Hfe.
    set (P := p2 (- (4 * e))) in *. set (z := zq (mx * my)) in *. set (fz := fround z) in *.
    assert (HP : (0 < P)%Qc) by apply p2_pos.
    assert (E50 : this (p2 (-50)) == 1 # 1125899906842624) by reflexivity.
    assert (E49 : this (p2 (-49)) == 1 # 562949953421312) by reflexivity.
    assert (E53 : this (p2 (-53)) == 1 # 9007199254740992) by reflexivity.
    assert (EP : qabs P = P) by apply qabs_p2.
    rewrite (qabs_mul z P), EP. rewrite (qabs_mul fz P), EP in Hwe.
    assert (T : (qabs (w - z * P) <= qabs (w - fz * P) + qabs (fz - z) * P)%Qc).
    { replace (w - z * P)%Qc with ((w - fz * P) + (fz - z) * P)%Qc by ring.
      eapply Qcle_trans; [apply qabs_triangle|]. rewrite qabs_mul, EP. apply Qcle_refl. }
    assert (T2 : (qabs fz <= qabs z + qabs (fz - z))%Qc).
    { replace fz with (z + (fz - z))%Qc at 1 by ring. apply qabs_triangle. }
    pose proof (qabs_nonneg z) as Hz0.
    set (A := qabs (w - z * P)%Qc) in *. set (B := qabs (w - fz * P)%Qc) in *.
    set (C := qabs (fz - z)%Qc) in *. set (D := qabs fz) in *. set (F := qabs z) in *.
    clearbody A B C D F. clear - HP E50 E49 E53 Hwe Hfe T T2 Hz0.
    assert (U1 : (C * P <= p2 (-53) * F * P)%Qc) by (qc_push; nra).
    assert (U2 : (D * P <= F * P + C * P)%Qc) by (qc_push; nra).
    assert (U3 : (0 <= F * P)%Qc) by (qc_push; nra).
    assert (Hwe' : (B <= p2 (-50) * (D * P) + tiny)%Qc).
    { eapply Qcle_trans; [exact Hwe|]. qc_push. lra. }
    assert (U1' : (C * P <= p2 (-53) * (F * P))%Qc).
    { eapply Qcle_trans; [exact U1|]. qc_push. lra. }
    clear U1 Hwe Hfe T2.
    replace (p2 (-49) * (F * P) + tiny)%Qc with (p2 (-49) * (F * P) + tiny)%Qc by ring.
    set (X := (F * P)%Qc) in *. set (Y := (C * P)%Qc) in *. set (U := (D * P)%Qc) in *.
    clearbody X Y U. qc_push. rewrite E50 in Hwe'. rewrite E53 in U1'. rewrite E49.
    assert (V : (this U <= (1 + (1 # 9007199254740992)) * this X)%Q) by lra.
    lra.
Qed.

(** ** Comparisons *)
Lemma num_cmp_means o a b : num_cmp o a b = true <-> cmp_means o a b.
Proof.
  destruct o; cbn [num_cmp cmp_means]; rewrite ?qltb_true, ?qleb_true, ?qeqb_true; try reflexivity.
  rewrite negb_true_iff, qeqb_false. reflexivity.
Qed.

Lemma fp_cmp_ok o x y m1 m2 : fp_mant x m1 -> fp_mant y m2 -> Z.abs m1 <= 2 ^ 53 -> Z.abs m2 <= 2 ^ 53 ->
  exists b, fp_cmp o x y = Ok b /\
    (b = true <-> cmp_means o (zq m1 * p2 (- (4 * fp_exp x))) (zq m2 * p2 (- (4 * fp_exp y)))).
Proof.
  intros H1 H2 B1 B2. unfold fp_cmp. rewrite (fp_decode_mant _ _ H1), (fp_decode_mant _ _ H2).
  destruct (decode_mant_small m1 (fp_exp x) B1) as (v1 & -> & E1 & _).
  destruct (decode_mant_small m2 (fp_exp y) B2) as (v2 & -> & E2 & _).
  cbn [mbind res_bind]. eexists. split; [reflexivity|]. rewrite E1, E2. apply num_cmp_means.
Qed.

Lemma fp_cmp_scalar_ok o x m1 s : fp_mant x m1 -> Z.abs m1 <= 2 ^ 53 ->
  exists b, fp_cmp_scalar o x s = Ok b /\
    (b = true <-> cmp_means o (zq m1 * p2 (- (4 * fp_exp x))) (num s)).
Proof.
  intros H1 B1. unfold fp_cmp_scalar. rewrite (fp_decode_mant _ _ H1).
  destruct (decode_mant_small m1 (fp_exp x) B1) as (v1 & -> & E1 & _).
  cbn [mbind res_bind]. eexists. split; [reflexivity|]. rewrite E1. apply num_cmp_means.
Qed.
