(** The encryption-mode calculator with the Paillier encrypter: integers and floats. *)
From Verif Require Import PyBase QcBase FixedPointModel FixedPointSpec FixedPointProofs PaillierModel PaillierSpec
  PaillierProofs EncNumProofs EncryptModeModel EncryptModeSpec.
From Coq Require Import Lia ZifyBool.
Local Open Scope Z_scope.

(** encrypt.py:186-189 PaillierEncrypt.encrypt used by the calculator on ints; the draw of each encryption is given by [fresh]. *)
Definition pe_enc_int {K} (n : Z) (fresh : nat -> K -> nat -> Z) (call : nat) (k : K) (i : nat) (z : Z) : res enum :=
  pk_encrypt n (PyInt z) None None (fresh call k i).
Definition pe_add_int (d : Z) (c : enum) : res enum := en_add_scalar c (PyInt d).

(** encrypt.py:186-189 PaillierEncrypt.encrypt on floats; plaintext subtraction is float subtraction. *)
Definition pe_enc_float {K} (n : Z) (fresh : nat -> K -> nat -> Z) (call : nat) (k : K) (i : nat) (q : Qc) : res enum :=
  pk_encrypt n (PyFloat q) None None (fresh call k i).
Definition float_sub (a b : Qc) : Qc := fround (a - b).
Definition pe_add_float (d : Qc) (c : enum) : res enum := en_add_scalar c (PyFloat d).

Section sk.
Variable sk : privkey.
Hypothesis G : good_sk sk.
Local Notation n := (sk_n sk).

Definition int_valid (z : Z) : Prop := 2 * Z.abs z <= pk_max_int n.
Definition int_dec (s : nat) (c : enum) (z : Z) : Prop := sk_decrypt sk (CEnc c) = Ok (PyInt z).
Definition int_D (s : nat) (c : enum) (z : Z) : Prop := en_exp c = 0 /\ en_value sk c (zq z).

Lemma int_D_dec s c z : int_D s c z -> int_dec s c z.
Proof.
  intros [He Hv]. destruct (decrypt_value sk c (zq z) G Hv) as [D1 _].
  destruct (D1 ltac:(lia)) as (z' & Hz & E). apply zq_inj in E. now subst.
Qed.

Lemma int_enc_ok {K} (fresh : nat -> K -> nat -> Z) call k i z :
  (forall a b c, Z.gcd (fresh a b c) n = 1) -> int_valid z ->
  exists c, pe_enc_int n fresh call k i z = Ok c /\ int_D 0 c z.
Proof.
  intros Hf Hv. destruct (encode_key_int sk G z) as (f & F1 & F2 & F3); [unfold int_valid in Hv; lia|].
  destruct (pk_encrypt_ok sk G (PyInt z) None _ f z F1 F2 (Hf call k i)) as (x & Hx & Mx & Ex).
  exists x. split; [exact Hx|]. split; [congruence|]. exists z. unfold int_valid in Hv.
  split; [lia|]. split; [exact Mx|]. rewrite Ex, F3. change (p2 (- (4 * 0))) with (zq 1). rewrite zq_1. ring.
Qed.

Lemma int_add_ok s c p q : int_valid p -> int_valid q -> int_D s c q ->
  exists c', pe_add_int (p - q) c = Ok c' /\ int_D (S s) c' p.
Proof.
  unfold int_valid. intros Hp Hq [He Hv]. pose proof (max_int_bounds sk G).
  assert (EN : fp_encode (PyInt (p - q)) (Some (n, pk_max_int n)) None (Some (en_exp c)) =
               Ok (FP ((p - q) mod n) 0 n (pk_max_int n))).
  { rewrite encode_int by lia. rewrite He. cbn [int_exp]. change (Z.max 0 0) with 0. rewrite Z.pow_0_r, !Z.mul_1_r.
    rewrite (proj2 (Z.leb_le _ _)) by lia. reflexivity. }
  destruct (en_add_scalar_value sk G c (zq q) (PyInt (p - q)) _ (zq (p - q)) Hv EN) as (r & Hr & Er & Vr).
  - exists (p - q). split; [apply encode_mant; lia|]. cbn [fp_exp]. change (p2 (- (4 * 0))) with (zq 1). rewrite zq_1. ring.
  - cbn [fp_exp]. rewrite He. change (16 ^ (0 - 0)) with 1. pose proof (g_n6 sk G). lia.
  - cbn [fp_exp]. change (p2 (4 * 0)) with (zq 1). rewrite <- zq_add, qabs_zq, <- zq_mul. apply zq_le. lia.
  - exists r. split; [exact Hr|]. split; [exact Er|]. rewrite <- zq_add in Vr. now replace (q + (p - q)) with p in Vr by lia.
Qed.

(** ** Floats *)
Section float.
Variable B : Z.
Hypothesis HB : 1 <= B <= 2 ^ 30.
Hypothesis Hbig : 2 ^ 1000 <= n.

Lemma encode_float_me q me : (qabs q <= zq (2 ^ 32))%Qc -> (match me with Some m => 0 <= m <= 179 | None => True end) ->
  exists f w, fp_encode (PyFloat q) (Some (n, pk_max_int n)) None me = Ok f /\ fp_holds f w /\
    0 <= fp_exp f <= 179 /\ (qabs (w - q) <= p2 (-50) * qabs q + tiny)%Qc.
Proof.
  intros Hq Hme. pose proof (max_big sk G Hbig) as MB. pose proof (max_int_bounds sk G) as MI.
  unfold fp_encode. cbn [FixedPointModel.num]. destruct (qltb (qabs q) tiny) eqn:Et.
  - apply qltb_true in Et. cbv zeta iota. set (e := match me with None => _ | Some m => _ end).
    assert (He : 0 <= e <= 179) by (subst e; destruct me; cbv iota in *; lia).
    assert (S : scaled_round (PyInt 0) e = Ok 0) by (unfold scaled_round; rewrite (proj2 (Z.leb_le _ _)) by lia; reflexivity).
    rewrite S. cbn [mbind res_bind]. change (Z.abs 0) with 0. rewrite (proj2 (Z.ltb_ge _ _)) by lia.
    exists (FP (0 mod n) e n (pk_max_int n)), (zq 0). split; [reflexivity|]. split.
    { exists 0. split; [apply encode_mant; lia|]. rewrite zq_0. ring. }
    split; [exact He|]. replace (zq 0 - q)%Qc with (- q)%Qc by (rewrite zq_0; ring). rewrite qabs_opp.
    pose proof (qabs_nonneg q). pose proof (p2_pos (-50)). qnra.
  - apply qltb_false in Et. pose proof (tiny_frexp q Et) as Hfe. pose proof (tiny_big q Et) as Hnz.
    destruct (frexp_spec q Hnz) as [Hf1 Hf2].
    assert (Hup : frexp_e q <= 33).
    { assert (A : (p2 (frexp_e q - 1) < p2 33)%Qc).
      { eapply Qcle_lt_trans; [exact Hf1|]. eapply Qcle_lt_trans; [exact Hq|]. reflexivity. }
      apply p2_lt_inv in A. lia. }
    set (e0 := (53 - frexp_e q) / 4).
    assert (He0 : 0 <= e0 <= 179) by (subst e0; pose proof (Z.div_lt_upper_bound (53 - frexp_e q) 4 180);
      pose proof (Z.div_pos (53 - frexp_e q) 4); lia).
    cbv zeta iota. fold e0. set (e := match me with None => _ | Some m => _ end).
    assert (He : e0 <= e <= 179) by (subst e; destruct me; cbv iota in *; lia).
    assert (Hs : (qabs (q * p2 (4 * e)) <= p2 748)%Qc).
    { rewrite qabs_mul, qabs_p2. rewrite <- p2_nonneg in Hq by lia.
      assert (L : (p2 (4 * e) <= p2 716)%Qc) by (apply p2_le; lia).
      replace 748 with (32 + 716) by lia. rewrite p2_add. pose proof (p2_pos (4 * e)). pose proof (qabs_nonneg q). qnra. }
    assert (SR : scaled_round (PyFloat q) e = Ok (round_he (q * p2 (4 * e)))).
    { unfold scaled_round. rewrite (proj2 (Z.leb_gt 256 e)) by lia.
      assert (L : qleb (p2 1024) (qabs (q * p2 (4 * e))) = false).
      { apply qleb_false. eapply Qcle_lt_trans; [exact Hs|]. apply p2_lt. lia. }
      cbv zeta. now rewrite L. }
    pose proof (scaled_float_err q e _ SR) as Herr.
    rewrite SR. cbn [mbind res_bind]. set (i := round_he (q * p2 (4 * e))) in *.
    assert (Hi : Z.abs i <= 2 ^ 748) by (apply round_he_bound; now rewrite <- p2_nonneg by lia).
    assert (2 ^ 748 <= 2 ^ 990) by (vm_compute; discriminate).
    rewrite (proj2 (Z.ltb_ge _ _)) by lia.
    exists (FP (i mod n) e n (pk_max_int n)), (zq i * p2 (- (4 * e)))%Qc. split; [reflexivity|].
    split; [exists i; split; [apply encode_mant; lia|reflexivity]|]. split; [cbn; lia|].
    pose proof (rel_half_unit q e Hnz ltac:(lia)) as Hr. pose proof tiny_pos. rewrite zq_0 in *. qlra.
Qed.

Definition float_valid (q : Qc) : Prop := (qabs q <= zq B)%Qc.
(** The drift allowed after s difference steps. *)
Definition drift (s : nat) : Qc := (zq (Z.of_nat s + 1) * p2 (-47) * zq B)%Qc.
Definition float_D (s : nat) (c : enum) (q : Qc) : Prop :=
  0 <= en_exp c <= 179 /\ exists w, en_value sk c w /\ (qabs (w - q) <= drift s)%Qc.

Lemma tiny_small : (tiny <= p2 (-60))%Qc.
Proof. vm_compute. discriminate. Qed.

Lemma p2_m47 : p2 (-47) = Q2Qc (1 # 140737488355328). Proof. reflexivity. Qed.

Lemma float_enc_ok {K} (fresh : nat -> K -> nat -> Z) call k i q :
  (forall a b c, Z.gcd (fresh a b c) n = 1) -> float_valid q ->
  exists c, pe_enc_float n fresh call k i q = Ok c /\ float_D 0 c q.
Proof.
  unfold float_valid. intros Hf Hv.
  assert (HB2 : (zq B <= zq (2 ^ 30))%Qc) by (apply zq_le; lia).
  destruct (encode_float_me q None) as (f & w & F1 & F2 & F3 & F4); [|exact I|].
  { eapply Qcle_trans; [exact Hv|]. apply zq_le. lia. }
  destruct F2 as (m & Hm & Ew).
  destruct (pk_encrypt_ok sk G (PyFloat q) None _ f m F1 Hm (Hf call k i)) as (x & Hx & Mx & Ex).
  exists x. split; [exact Hx|]. split; [lia|]. exists w. split.
  - exists m. destruct (fp_encode_mant sk G _ _ _ _ F1) as (m' & _ & _ & Em & _).
    destruct Hm as (_ & _ & Hm & _). rewrite Em in Hm. split; [exact Hm|]. split; [exact Mx|]. now rewrite Ex.
  - unfold drift. change (Z.of_nat 0 + 1) with 1. pose proof tiny_small as TS.
    assert (B1 : (zq 1 <= zq B)%Qc) by (apply zq_le; lia).
    change (p2 (-60)) with (Q2Qc (1 # 1152921504606846976)) in TS.
    change (p2 (-50)) with (Q2Qc (1 # 1125899906842624)) in F4. rewrite p2_m47. qlra.
Qed.

Lemma float_add_ok s c p q : Z.of_nat s < 2 ^ 40 -> float_valid p -> float_valid q -> float_D s c q ->
  exists c', pe_add_float (float_sub p q) c = Ok c' /\ float_D (S s) c' p.
Proof.
  unfold float_valid. intros Hs Hp Hq (He & a & Va & Da).
  assert (HB2 : (zq B <= zq (2 ^ 30))%Qc) by (apply zq_le; lia).
  change (zq (2 ^ 30)) with (Q2Qc (1073741824 # 1)) in HB2.
  assert (B1 : (zq 1 <= zq B)%Qc) by (apply zq_le; lia).
  set (d := float_sub p q).
  assert (Hd1 : (qabs (d - (p - q)) <= p2 (-53) * qabs (p - q))%Qc) by apply fround_err.
  assert (Hpq : (qabs (p - q) <= zq 2 * zq B)%Qc).
  { replace (p - q)%Qc with (p + (- q))%Qc by ring. eapply Qcle_trans; [apply qabs_triangle|]. rewrite qabs_opp.
    change (zq 2) with (Q2Qc (2 # 1)). qlra. }
  change (zq 2) with (Q2Qc (2 # 1)) in Hpq.
  change (p2 (-53)) with (Q2Qc (1 # 9007199254740992)) in Hd1.
  assert (Hdb : (qabs d <= Q2Qc (3 # 1) * zq B)%Qc).
  { replace d with ((d - (p - q)) + (p - q))%Qc by ring. eapply Qcle_trans; [apply qabs_triangle|]. qlra. }
  destruct (encode_float_me d (Some (en_exp c))) as (f & w & F1 & F2 & F3 & F4); [|exact He|].
  { eapply Qcle_trans; [exact Hdb|]. change (zq (2 ^ 32)) with (Q2Qc (4294967296 # 1)). qlra. }
  change (p2 (-50)) with (Q2Qc (1 # 1125899906842624)) in F4. pose proof tiny_small as TS.
  change (p2 (-60)) with (Q2Qc (1 # 1152921504606846976)) in TS.
  assert (ERR : (qabs ((a + w) - p) <= drift (S s))%Qc).
  { replace (a + w - p)%Qc with ((a - q) + ((w - d) + (d - (p - q))))%Qc by ring.
    eapply Qcle_trans; [apply qabs_triangle|]. 
    assert (T2 : (qabs (w - d + (d - (p - q))) <= qabs (w - d) + qabs (d - (p - q)))%Qc) by apply qabs_triangle.
    unfold drift in *. replace (Z.of_nat (S s) + 1) with (Z.of_nat s + 1 + 1) by lia. rewrite zq_add.
    rewrite p2_m47 in *. change (zq 1) with (Q2Qc (1 # 1)) in *.
    replace ((zq (Z.of_nat s + 1) + Q2Qc (1 # 1)) * Q2Qc (1 # 140737488355328) * zq B)%Qc
      with (zq (Z.of_nat s + 1) * Q2Qc (1 # 140737488355328) * zq B + Q2Qc (1 # 140737488355328) * zq B)%Qc
      by (change (Q2Qc (1 # 1)) with 1%Qc; ring).
    qlra. }
  destruct (fp_encode_mant sk G _ _ _ _ F1) as (m' & _ & _ & _ & Hge).
  destruct (en_add_scalar_value sk G c a (PyFloat d) f w Va F1 F2) as (r & Hr & Er & Vr).
  - apply align_fits; [exact G|exact Hbig|lia].
  - (* the aligned sum is below 2^42 * 2^716 *)
    assert (Hdr : (drift (S s) <= zq (2 ^ 32))%Qc).
    { unfold drift. assert (ZS : (zq (Z.of_nat (S s) + 1) <= zq (2 ^ 41))%Qc) by (apply zq_le; lia).
      change (zq (2 ^ 41)) with (Q2Qc (2199023255552 # 1)) in ZS. change (zq (2 ^ 32)) with (Q2Qc (4294967296 # 1)).
      assert (Z0 : (zq 0 <= zq (Z.of_nat (S s) + 1))%Qc) by (apply zq_le; lia). rewrite zq_0 in Z0.
      rewrite p2_m47. change (zq 1) with (Q2Qc (1 # 1)) in B1.
      set (X := zq (Z.of_nat (S s) + 1)) in *. set (Y := zq B) in *.
      assert (XY : (X * Y <= Q2Qc (2199023255552 # 1) * Q2Qc (1073741824 # 1))%Qc) by qnra.
      replace (X * Q2Qc (1 # 140737488355328) * Y)%Qc with (X * Y * Q2Qc (1 # 140737488355328))%Qc by ring. qlra. }
    assert (Haw : (qabs (a + w) <= zq (2 ^ 33))%Qc).
    { replace (a + w)%Qc with ((a + w - p) + p)%Qc by ring. eapply Qcle_trans; [apply qabs_triangle|].
      change (zq (2 ^ 33)) with (Q2Qc (8589934592 # 1)). change (zq (2 ^ 32)) with (Q2Qc (4294967296 # 1)) in Hdr. qlra. }
    assert (L : (p2 (4 * fp_exp f) <= p2 716)%Qc) by (apply p2_le; lia).
    pose proof (p2_pos (4 * fp_exp f)) as P1. rewrite <- p2_nonneg in Haw by lia.
    apply Qcle_trans with (p2 33 * p2 716)%Qc; [pose proof (qabs_nonneg (a + w)); pose proof (p2_pos 33); qnra|].
    rewrite p2_sub_add, p2_nonneg by lia. apply zq_le. pose proof (max_big sk G Hbig).
    assert (2 ^ (33 + 716) <= 2 ^ 990) by (vm_compute; discriminate). lia.
  - exists r. split; [exact Hr|]. split; [lia|]. exists (a + w)%Qc. auto.
Qed.

(** What the data owner reads back. *)
Definition float_dec (s : nat) (c : enum) (q : Qc) : Prop :=
  exists v, sk_decrypt sk (CEnc c) = Ok v /\ (qabs (FixedPointModel.num v - q) <= drift (S s))%Qc.

Lemma float_D_dec s c q : Z.of_nat s < 2 ^ 40 -> float_valid q -> float_D s c q -> float_dec s c q.
Proof.
  unfold float_valid. intros Hs Hq (He & w & Vw & Dw). destruct (decrypt_value sk c w G Vw) as [D1 D2].
  assert (DS : (drift s <= drift (S s))%Qc).
  { unfold drift. assert (A : (zq (Z.of_nat s + 1) <= zq (Z.of_nat (S s) + 1))%Qc) by (apply zq_le; lia).
    assert (Bp : (zq 0 <= zq B)%Qc) by (apply zq_le; lia). rewrite zq_0 in Bp. rewrite p2_m47.
    set (X := zq (Z.of_nat s + 1)) in *. set (Y := zq (Z.of_nat (S s) + 1)) in *.
    assert (XY : (X * zq B <= Y * zq B)%Qc) by qnra.
    replace (X * Q2Qc (1 # 140737488355328) * zq B)%Qc with (X * zq B * Q2Qc (1 # 140737488355328))%Qc by ring.
    replace (Y * Q2Qc (1 # 140737488355328) * zq B)%Qc with (Y * zq B * Q2Qc (1 # 140737488355328))%Qc by ring. qlra. }
  destruct (Z_le_gt_dec (en_exp c) 0) as [Hz|Hz].
  - destruct (D1 Hz) as (z & Hz1 & Hz2). exists (PyInt z). split; [exact Hz1|]. cbn [FixedPointModel.num]. rewrite Hz2. qlra.
  - assert (B1 : (zq 1 <= zq B)%Qc) by (apply zq_le; lia).
    assert (HB2 : (zq B <= zq (2 ^ 30))%Qc) by (apply zq_le; lia).
    assert (ZS : (zq (Z.of_nat s + 1) <= zq (2 ^ 40))%Qc) by (apply zq_le; lia).
    assert (Z0 : (zq 0 <= zq (Z.of_nat s + 1))%Qc) by (apply zq_le; lia). rewrite zq_0 in Z0.
    change (zq (2 ^ 40)) with (Q2Qc (1099511627776 # 1)) in ZS. change (zq 1) with (Q2Qc (1 # 1)) in B1.
    change (zq (2 ^ 30)) with (Q2Qc (1073741824 # 1)) in HB2.
    assert (DB : (drift s <= Q2Qc (1 # 128) * zq B)%Qc).
    { unfold drift. rewrite p2_m47. set (X := zq (Z.of_nat s + 1)) in *.
      assert (XY : (X * zq B <= Q2Qc (1099511627776 # 1) * zq B)%Qc) by qnra.
      replace (X * Q2Qc (1 # 140737488355328) * zq B)%Qc with (X * zq B * Q2Qc (1 # 140737488355328))%Qc by ring. qlra. }
    assert (Hw : (qabs w <= Q2Qc (2 # 1) * zq B)%Qc).
    { replace w with ((w - q) + q)%Qc by ring. eapply Qcle_trans; [apply qabs_triangle|]. qlra. }
    unfold float_dec. rewrite D2 by lia.
    assert (L : qleb (zq float_limit) (qabs w * p2 (4 * en_exp c)) = false).
    { apply qleb_false. apply Qcle_lt_trans with (p2 31 * p2 716)%Qc.
      - assert (L : (p2 (4 * en_exp c) <= p2 716)%Qc) by (apply p2_le; lia).
        assert (W : (qabs w <= p2 31)%Qc) by (change (p2 31) with (Q2Qc (2147483648 # 1)); qlra).
        pose proof (qabs_nonneg w). pose proof (p2_pos (4 * en_exp c)). qnra.
      - rewrite p2_sub_add, p2_nonneg by lia. apply zq_lt. reflexivity. }
    rewrite L. eexists. split; [reflexivity|]. cbn [FixedPointModel.num]. pose proof (fround_err w) as FE.
    change (p2 (-53)) with (Q2Qc (1 # 9007199254740992)) in FE.
    replace (fround w - q)%Qc with ((fround w - w) + (w - q))%Qc by ring.
    eapply Qcle_trans; [apply qabs_triangle|]. unfold drift in *.
    replace (Z.of_nat (S s) + 1) with (Z.of_nat s + 1 + 1) by lia. rewrite zq_add. rewrite p2_m47 in *.
    replace ((zq (Z.of_nat s + 1) + zq 1) * Q2Qc (1 # 140737488355328) * zq B)%Qc
      with (zq (Z.of_nat s + 1) * Q2Qc (1 # 140737488355328) * zq B + Q2Qc (1 # 140737488355328) * zq B)%Qc
      by (change (zq 1) with 1%Qc; ring). qlra.
Qed.
End float.
End sk.
