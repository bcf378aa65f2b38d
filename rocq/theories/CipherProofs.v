(** Proofs about the RSA and affine ciphers. *)
From Verif Require Import PyBase QcBase NumTheory FixedPointModel FixedPointSpec FixedPointProofs PaillierModel
  PaillierProofs EncNumProofs CipherModel CipherSpec.
From Coq Require Import Lia Znumtheory.
Local Open Scope Z_scope.

(** ** RSA *)
Lemma rsa_half p m k : prime p -> 0 < k -> (p - 1 | k - 1) -> cong p (m ^ k) m.
Proof.
  intros Hp Hk [j Hj]. pose proof (prime_gt1 p Hp).
  destruct (Zdivide_dec p m) as [[x Hx]|Hn].
  - exists (x * m ^ (k - 1) - x). replace k with (Z.succ (k - 1)) at 1 by lia. rewrite Z.pow_succ_r by lia. rewrite Hx at 1. nia.
  - assert (0 <= j) by nia. replace k with (1 + (p - 1) * j) by lia. rewrite Z.pow_add_r, Z.pow_1_r, Z.pow_mul_r by nia.
    apply cong_trans with (m * 1); [|rewrite Z.mul_1_r; apply cong_refl]. apply cong_mul; [apply cong_refl|].
    apply cong_trans with (1 ^ j); [|apply cong_eq, Z.pow_1_l; lia]. apply cong_pow; [lia|].
    apply mod_eq_cong; [lia|]. rewrite (fermat_Z p m Hp Hn). symmetry. apply Z.mod_1_l. lia.
Qed.

Lemma cong_crt p q a b : prime p -> prime q -> p <> q -> cong p a b -> cong q a b -> cong (p * q) a b.
Proof.
  intros Hp Hq Hpq [x Hx] Hd. 
  assert (R : rel_prime p q) by (apply pq_rel_prime; auto).
  assert (D : (q | x)). { apply Gauss with p; [destruct Hd as [y Hy]; exists y; lia|]. now apply rel_prime_sym. }
  destruct D as [y Hy]. exists y. subst x. lia.
Qed.

Lemma rsa_roundtrip p q e d m : prime p -> prime q -> p <> q -> 0 <= e -> 0 <= d ->
  (e * d) mod Z.lcm (p - 1) (q - 1) = 1 mod Z.lcm (p - 1) (q - 1) -> 0 < e * d ->
  powmod (powmod m e (p * q)) d (p * q) = m mod (p * q).
Proof.
  intros Hp Hq Hpq He Hd Hl Hed. pose proof (prime_gt1 p Hp). pose proof (prime_gt1 q Hq).
  assert (N1 : 1 < p * q) by nia.
  assert (L0 : Z.lcm (p - 1) (q - 1) <> 0) by (intros Hz; apply Z.lcm_eq_0 in Hz; lia).
  apply mod_eq_cong in Hl; [|exact L0].
  assert (C : cong (p * q) (m ^ (e * d)) m).
  { apply cong_crt; auto; apply rsa_half; auto; eapply Z.divide_trans; try exact Hl; [apply Z.divide_lcm_l|apply Z.divide_lcm_r]. }
  rewrite <- (cong_mod_eq (p * q) (m ^ (e * d)) m) by (assumption || lia).
  rewrite <- (Z.mod_small (powmod _ d _) (p * q)) by (apply powmod_range; lia).
  apply cong_mod_eq; [lia|]. eapply cong_trans; [apply powmod_cong; lia|]. rewrite Z.pow_mul_r by lia.
  apply cong_pow; [lia|]. apply powmod_cong; lia.
Qed.

(** ** Affine cipher *)
Lemma truediv_unit p n : 0 < n -> 0 <= p < n -> exists q, int_truediv p n = Ok q /\
  (qabs (q - zq p / zq n) <= p2 (-53))%Qc.
Proof.
  intros Hn Hp. unfold int_truediv. rewrite (proj2 (Z.eqb_neq n 0)) by lia. cbv zeta.
  assert (Y : (zq 0 <= zq p / zq n)%Qc /\ (zq p / zq n <= zq 1)%Qc).
  { assert (P1 : (zq 0 < zq n)%Qc) by (apply zq_lt; lia). assert (P2 : (zq 0 <= zq p)%Qc) by (apply zq_le; lia).
    assert (P3 : (zq p < zq n)%Qc) by (apply zq_lt; lia). 
    assert (E : (zq p / zq n * zq n)%Qc = zq p).
    { field. intros E. rewrite E in P1. rewrite zq_0 in P1. now apply Qclt_not_eq in P1. }
    set (y := (zq p / zq n)%Qc) in *. rewrite zq_0, zq_1 in *. split; [apply Qcnot_lt_le; intros L|apply Qcnot_lt_le; intros L]; qnra. }
  set (y := (zq p / zq n)%Qc) in *. pose proof (fround_err y) as F.
  assert (A : qabs y = y). { destruct (qabs_spec y) as [[_ A]|[A _]]; [exact A|]. rewrite zq_0 in Y. exfalso. qlra. }
  rewrite A in F. rewrite zq_0, zq_1 in Y. change (p2 (-53)) with (Q2Qc (1 # 9007199254740992)) in *.
  assert (F2 : (qabs (fround y - y) <= Q2Qc (1 # 9007199254740992))%Qc) by qlra.
  assert (L : qleb (p2 1024) (qabs (fround y)) = false).
  { apply qleb_false. apply Qcle_lt_trans with (zq 2); [|reflexivity].
    replace (fround y) with ((fround y - y) + y)%Qc by ring. eapply Qcle_trans; [apply qabs_triangle|]. rewrite A.
    change (zq 2) with (Q2Qc (2 # 1)). qlra. }
  rewrite L. exists (fround y). split; [reflexivity|exact F2].
Qed.

Section akey.
Variables (a b n mult : Z) (k : akey).
Hypothesis Hn : 1 < n.
Hypothesis Hk : mk_akey a b n mult = Ok k.

Definition holds (c : act) (M : Z) : Prop := cong n (ac_cipher c) (a * M + ac_mult c * b).

Lemma akey_inv : ak_a k = a /\ ak_b k = b /\ ak_n k = n /\ ak_mult k = mult /\ cong n (a * ak_inv k) 1.
Proof.
  unfold mk_akey in Hk. destruct (invert a n) as [i|] eqn:E; [|discriminate]. cbn in Hk. injection Hk as <-. cbn.
  destruct (invert_inv a n i Hn E) as (_ & C & _). auto.
Qed.

Lemma raw_dec_value c M : holds c M -> exists D, aff_raw_decrypt k c = Ok D /\ cong n D M /\
  - 1000001 * n <= 10000000 * D <= 9000001 * n /\
  (- 999999 * n <= 10000000 * M <= 8999999 * n -> D = M).
Proof.
  destruct akey_inv as (Ea & Eb & En & Em & Ci). intros Hc. unfold aff_raw_decrypt. rewrite Eb, En.
  set (p := (ak_inv k * (ac_cipher c mod n - ac_mult c * b)) mod n).
  assert (Cp : cong n p M).
  { unfold p. eapply cong_trans; [apply cong_mod; lia|].
    eapply cong_trans; [apply cong_mul; [apply cong_refl|apply cong_sub; [apply cong_mod; lia|apply cong_refl]]|].
    eapply cong_trans; [apply cong_mul; [apply cong_refl|apply cong_sub; [exact Hc|apply cong_refl]]|].
    replace (ak_inv k * (a * M + ac_mult c * b - ac_mult c * b)) with (a * ak_inv k * M) by ring.
    eapply cong_trans; [apply cong_mul; [exact Ci|apply cong_refl]|]. apply cong_eq. lia. }
  assert (Rp : 0 <= p < n) by (apply Z.mod_pos_bound; lia).
  destruct (truediv_unit p n ltac:(lia) Rp) as (y & Hy & Ey). rewrite Hy. cbn [mbind res_bind].
  change (p2 (-53)) with (Q2Qc (1 # 9007199254740992)) in Ey. apply qabs_le in Ey as [E1 E2].
  assert (P1 : (zq 0 < zq n)%Qc) by (apply zq_lt; lia).
  assert (E : (zq p / zq n * zq n)%Qc = zq p).
  { field. intros E. rewrite E in P1. rewrite zq_0 in P1. now apply Qclt_not_eq in P1. }
  set (w := (zq p / zq n)%Qc) in *. rewrite zq_0 in P1.
  assert (Dd : d09 = Q2Qc (8106479329266893 # 9007199254740992)) by reflexivity.
  eexists. split; [reflexivity|]. destruct (qltb d09 y) eqn:Q.
  - apply qltb_true in Q. rewrite Dd in Q.
    assert (B : 8999999 * n <= 10000000 * p).
    { apply zq_le. rewrite !zq_mul. change (zq 8999999) with (Q2Qc (8999999 # 1)). change (zq 10000000) with (Q2Qc (10000000 # 1)). 
      rewrite <- E. assert (W : (Q2Qc (8999999 # 10000000) <= w)%Qc) by qlra. qnra. }
    assert (C : 9000000 * n < 10000000 * p + n).
    { apply zq_lt. rewrite zq_add, !zq_mul. change (zq 9000000) with (Q2Qc (9000000 # 1)). change (zq 10000000) with (Q2Qc (10000000 # 1)). 
      rewrite <- E. assert (W : (Q2Qc (8999999 # 10000000) < w)%Qc) by qlra. qnra. }
    split; [|split; [lia|]].
    + eapply cong_trans; [|exact Cp]. exists (-1). lia.
    + intros [M1 M2]. destruct Cp as [j Hj]. assert (j = 1) by nia. lia.
  - apply qltb_false in Q. rewrite Dd in Q.
    assert (B : 10000000 * p <= 9000001 * n).
    { apply zq_le. rewrite !zq_mul. change (zq 9000001) with (Q2Qc (9000001 # 1)). change (zq 10000000) with (Q2Qc (10000000 # 1)). 
      rewrite <- E. assert (W : (w <= Q2Qc (9000001 # 10000000))%Qc) by qlra. qnra. }
    assert (C : 10000000 * p < 9000001 * n).
    { apply zq_lt. rewrite !zq_mul. change (zq 9000001) with (Q2Qc (9000001 # 1)). change (zq 10000000) with (Q2Qc (10000000 # 1)). 
      rewrite <- E. assert (W : (w < Q2Qc (9000001 # 10000000))%Qc) by qlra. qnra. }
    split; [exact Cp|]. split; [lia|]. intros [M1 M2]. destruct Cp as [j Hj]. assert (j = 0) by nia. lia.
Qed.

Lemma holds_enc m : holds (aff_raw_encrypt k m) m.
Proof.
  destruct akey_inv as (Ea & Eb & En & _). unfold holds, aff_raw_encrypt. cbn [ac_cipher ac_mult]. rewrite Ea, Eb, En.
  eapply cong_trans; [apply cong_mod; lia|]. apply cong_eq. lia.
Qed.

Definition cell_holds (x : acell) (M : Z) : Prop :=
  match x with AInt z => z = 0 /\ M = 0 | ACipher c => holds c M end.

Lemma aadd_ok x y M N : cell_holds x M -> cell_holds y N -> exists r, aff_add x y = Ok r /\ cell_holds r (M + N).
Proof.
  destruct x as [u|c], y as [v|d]; cbn [cell_holds aff_add].
  - intros [-> ->] [-> ->]. exists (AInt 0). split; [reflexivity|]. split; reflexivity.
  - intros [-> ->] H. exists (ACipher d). split; [reflexivity|exact H].
  - intros H [-> ->]. exists (ACipher c). split; [reflexivity|]. now rewrite Z.add_0_r.
  - intros H1 H2. eexists. split; [reflexivity|]. cbn [cell_holds]. unfold holds in *. cbn [ac_cipher ac_mult].
    eapply cong_trans; [apply cong_add; [exact H1|exact H2]|]. apply cong_eq. lia.
Qed.

Lemma amul_ok x z M : cell_holds x M ->
  (exists r, aff_mul x (AInt z) = Ok r /\ cell_holds r (z * M)) /\ (exists r, aff_mul (AInt z) x = Ok r /\ cell_holds r (z * M)).
Proof.
  destruct x as [u|c]; cbn [cell_holds aff_mul].
  - intros [-> ->]. split; eexists; (split; [reflexivity|]); cbn; lia.
  - intros H. assert (holds (ACT (ac_cipher c * z) (ac_mult c * z)) (z * M)).
    { unfold holds in *. cbn [ac_cipher ac_mult]. eapply cong_trans; [apply cong_mul; [exact H|apply cong_refl]|]. apply cong_eq. lia. }
    split; eexists; (split; [reflexivity|]); assumption.
Qed.

Lemma asub_ok x y M N : cell_holds x M -> cell_holds y N -> exists r, aff_sub x y = Ok r /\ cell_holds r (M - N).
Proof.
  intros Hx Hy. destruct (amul_ok y (-1) N Hy) as [(t & Ht & Kt) _].
  destruct (aadd_ok x t M (-1 * N) Hx Kt) as (r & Hr & Kr).
  replace (M + -1 * N) with (M - N) in Kr by lia.
  destruct x as [u|c], y as [v|d]; cbn [aff_sub]; try (exists r; rewrite Ht; cbn [mbind res_bind]; auto).
  cbn [cell_holds] in Hx, Hy. exists (AInt (u - v)). split; [reflexivity|]. cbn. lia.
Qed.

Lemma aeval_ok (w : pynum -> Z -> Prop) (ok : pynum -> Prop) e :
  (forall x, ok x -> exists z, aff_encode mult x = Ok z /\ w x z) ->
  (fix leaves e := match e with EZero => True | ELeaf x => ok x | EAdd a b | ESub a b => leaves a /\ leaves b
                           | EMul _ a | EMulR a _ => leaves a end) e ->
  exists M x, aval w e M /\ aeval k e = Ok x /\ cell_holds x M.
Proof.
  intros Hw. destruct akey_inv as (_ & _ & _ & Em & _). induction e as [|x|e1 IH1 e2 IH2|e1 IH1 e2 IH2|z e IH|e IH z]; intros He; cbn [aeval].
  - exists 0, (AInt 0). split; [constructor|]. split; [reflexivity|]. split; reflexivity.
  - destruct (Hw x He) as (z & Hz & Kz). exists z, (ACipher (aff_raw_encrypt k z)). split; [now constructor|].
    unfold aff_encrypt. rewrite Em, Hz. cbn [mbind res_bind]. split; [reflexivity|]. apply holds_enc.
  - destruct He as [H1 H2]. destruct (IH1 H1) as (M & x & A1 & B1 & C1). destruct (IH2 H2) as (N & y & A2 & B2 & C2).
    destruct (aadd_ok x y M N C1 C2) as (r & Hr & Kr). exists (M + N), r. split; [now constructor|].
    rewrite B1. cbn [mbind res_bind]. rewrite B2. cbn [mbind res_bind]. auto.
  - destruct He as [H1 H2]. destruct (IH1 H1) as (M & x & A1 & B1 & C1). destruct (IH2 H2) as (N & y & A2 & B2 & C2).
    destruct (asub_ok x y M N C1 C2) as (r & Hr & Kr). exists (M - N), r. split; [now constructor|].
    rewrite B1. cbn [mbind res_bind]. rewrite B2. cbn [mbind res_bind]. auto.
  - destruct (IH He) as (M & x & A1 & B1 & C1). destruct (amul_ok x z M C1) as [_ (r & Hr & Kr)].
    exists (z * M), r. split; [now constructor|]. rewrite B1. cbn [mbind res_bind]. auto.
  - destruct (IH He) as (M & x & A1 & B1 & C1). destruct (amul_ok x z M C1) as [(r & Hr & Kr) _].
    exists (z * M), r. split; [now constructor|]. rewrite B1. cbn [mbind res_bind]. auto.
Qed.
End akey.

(** ** Encoding *)
Lemma trunc_spec q : (qabs (zq (trunc q)) <= qabs q)%Qc /\ (qabs (q - zq (trunc q)) < zq 1)%Qc /\ (zq 0 <= zq (trunc q) * q)%Qc.
Proof.
  unfold trunc. destruct (qltb q (zq 0)) eqn:E.
  - apply qltb_true in E. pose proof (qfloor_le (- q)) as H1. pose proof (qfloor_lt (- q)) as H2.
    rewrite zq_add in H2. rewrite zq_opp. set (f := zq (qfloor (- q))) in *.
    assert (H0 : (zq 0 <= f)%Qc).
    { subst f. apply zq_le. assert (A : (zq 0 < zq (qfloor (- q) + 1))%Qc).
      { eapply Qcle_lt_trans; [|apply qfloor_lt]. rewrite zq_0 in *. qlra. } rewrite zq_lt in A. lia. }
    rewrite zq_0, zq_1 in *.
    destruct (qabs_spec q) as [[? ?]|[? Hq]]; [exfalso; qlra|]. rewrite Hq, qabs_opp.
    destruct (qabs_spec f) as [[? Hf]|[? ?]]; [|exfalso; qlra]. rewrite Hf.
    split; [exact H1|]. split; [|qnra]. apply qabs_lt. split; qlra.
  - apply qltb_false in E. pose proof (qfloor_le q) as H1. pose proof (qfloor_lt q) as H2. rewrite zq_add in H2.
    assert (H0 : (zq 0 <= zq (qfloor q))%Qc).
    { apply zq_le. assert (A : (zq 0 < zq (qfloor q + 1))%Qc).
      { eapply Qcle_lt_trans; [|apply qfloor_lt]. exact E. } rewrite zq_lt in A. lia. }
    set (f := zq (qfloor q)) in *. rewrite zq_0, zq_1 in *.
    destruct (qabs_spec q) as [[? Hq]|[? Hq]]; [|exfalso; qlra]. rewrite Hq.
    destruct (qabs_spec f) as [[? Hf]|[? ?]]; [|exfalso; qlra]. rewrite Hf.
    split; [exact H1|]. split; [|qnra]. apply qabs_lt. split; qlra.
Qed.

Lemma encode100_ok x : (match x with PyInt _ => True | PyFloat q => is_double q /\ (qabs q < p2 924)%Qc end) ->
  exists z, aff_encode (2 ^ 100) x = Ok z /\ enc100 x z.
Proof.
  destruct x as [i|q]; cbn [aff_encode].
  - intros _. exists (2 ^ 100 * i). split; [reflexivity|]. unfold enc100. cbn [FixedPointModel.num]. cbv zeta.
    rewrite <- zq_mul. set (y := zq (2 ^ 100 * i)). split; [apply Qcle_refl|]. split.
    + replace (y - y)%Qc with (zq 0) by (rewrite zq_0; ring). reflexivity.
    + rewrite zq_0. destruct (qabs_spec y) as [[? _]|[? _]]; qnra.
  - intros [(c & t & Hc & Eq) Hq].
    assert (E1 : int_to_float (2 ^ 100) = Ok (p2 100)).
    { vm_compute. reflexivity. }
    rewrite E1. cbn [mbind res_bind]. cbv zeta.
    assert (E2 : fround (p2 100 * q)%Qc = (p2 100 * q)%Qc).
    { rewrite Eq. replace (p2 100 * (zq c * p2 t))%Qc with (zq c * p2 (100 + t))%Qc by (rewrite p2_add; ring).
      apply fround_exact. lia. }
    rewrite E2.
    assert (L : qleb (p2 1024) (qabs (p2 100 * q)) = false).
    { apply qleb_false. rewrite qabs_mul, qabs_p2. change 1024 with (100 + 924). rewrite p2_add.
      pose proof (p2_pos 100). qnra. }
    rewrite L. eexists. split; [reflexivity|]. unfold enc100. cbn [FixedPointModel.num]. cbv zeta.
    rewrite p2_nonneg by lia. apply trunc_spec.
Qed.
