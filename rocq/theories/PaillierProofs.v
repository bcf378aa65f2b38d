From Verif Require Import PyBase QcBase FixedPointModel FixedPointSpec FixedPointProofs PaillierModel.
From Verif Require Import NumTheory.
From Coq Require Import ZArith Znumtheory Zpow_facts Lia ZifyBool.
Local Open Scope Z_scope.

(** ** Congruences *)
Definition cong (n a b : Z) : Prop := (n | a - b).

Lemma cong_refl n a : cong n a a.
Proof. exists 0. lia. Qed.
Lemma cong_eq n a b : a = b -> cong n a b.
Proof. intros ->. apply cong_refl. Qed.
Lemma cong_sym n a b : cong n a b -> cong n b a.
Proof. intros [k E]. exists (- k). lia. Qed.
Lemma cong_trans n a b c : cong n a b -> cong n b c -> cong n a c.
Proof. intros [k E] [l F]. exists (k + l). lia. Qed.
Lemma cong_add n a b c d : cong n a b -> cong n c d -> cong n (a + c) (b + d).
Proof. intros [k E] [l F]. exists (k + l). lia. Qed.
Lemma cong_sub n a b c d : cong n a b -> cong n c d -> cong n (a - c) (b - d).
Proof. intros [k E] [l F]. exists (k - l). lia. Qed.
Lemma cong_mul n a b c d : cong n a b -> cong n c d -> cong n (a * c) (b * d).
Proof. intros [k E] [l F]. exists (k * c + b * l). nia. Qed.
Lemma cong_pow n a b k : 0 <= k -> cong n a b -> cong n (a ^ k) (b ^ k).
Proof.
  intros Hk H. pattern k. apply natlike_ind; [apply cong_refl| |exact Hk].
  intros j Hj IH. rewrite !Z.pow_succ_r by exact Hj. now apply cong_mul.
Qed.
Lemma cong_mod n a : n <> 0 -> cong n (a mod n) a.
Proof. intros Hn. exists (- (a / n)). pose proof (Z.div_mod a n Hn). lia. Qed.
Lemma cong_mod_eq n a b : 0 < n -> cong n a b -> a mod n = b mod n.
Proof. intros Hn [k E]. replace a with (b + k * n) by lia. now apply Z.mod_add; lia. Qed.
Lemma mod_eq_cong n a b : n <> 0 -> a mod n = b mod n -> cong n a b.
Proof.
  intros Hn E. apply cong_trans with (a mod n); [apply cong_sym, cong_mod, Hn|].
  rewrite E. now apply cong_mod.
Qed.
Lemma cong_weaken n d a b : (d | n) -> cong n a b -> cong d a b.
Proof. intros [j ->] [k E]. exists (k * j). lia. Qed.

(** Cancellation of a unit. *)
Lemma cong_cancel n c a b : rel_prime c n -> cong n (c * a) (c * b) -> cong n a b.
Proof.
  intros Hr [k E]. apply Gauss with c.
  - exists k. lia.
  - now apply rel_prime_sym.
Qed.

Lemma powmod_cong a b c : 1 < c -> 0 <= b -> cong c (powmod a b c) (a ^ b).
Proof.
  intros Hc Hb. unfold powmod. destruct (a =? 1) eqn:E.
  - replace a with 1 by lia. rewrite Z.pow_1_l by lia. apply cong_refl.
  - rewrite Zpow_mod_correct by lia. apply cong_mod. lia.
Qed.
Lemma powmod_range a b c : 1 < c -> 0 <= powmod a b c < c.
Proof.
  intros Hc. unfold powmod. destruct (a =? 1); [lia|].
  rewrite Zpow_mod_correct by lia. apply Z.mod_pos_bound. lia.
Qed.

(** ** Modular inverse *)
Lemma egcd_bezout fuel a b : let '(g, u, v) := egcd fuel a b in u * a + v * b = g.
Proof.
  revert a b. induction fuel as [|f IH]; intros a b; cbn [egcd]; [lia|].
  destruct (b =? 0) eqn:E; [lia|].
  specialize (IH b (a mod b)). destruct (egcd f b (a mod b)) as [[g u] v].
  pose proof (Z.div_mod a b). nia.
Qed.

Lemma egcd_gcd j : forall a b fuel, 0 <= a -> 0 <= b < 2 ^ Z.of_nat j -> (2 * j <= fuel)%nat ->
  fst (fst (egcd fuel a b)) = Z.gcd a b.
Proof.
  induction j as [|j IH]; intros a b fuel Ha Hb Hf.
  - cbn in Hb. assert (b = 0) as -> by lia. rewrite Z.gcd_0_r, Z.abs_eq by lia.
    destruct fuel; reflexivity.
  - destruct fuel as [|[|f]]; [lia..|]. cbn [egcd].
    destruct (b =? 0) eqn:E; [assert (b = 0) as -> by lia; rewrite Z.gcd_0_r, Z.abs_eq by lia; reflexivity|].
    assert (Hb1 : 0 <= a mod b < b) by (apply Z.mod_pos_bound; lia).
    assert (G1 : Z.gcd a b = Z.gcd b (a mod b)).
    { rewrite (Z.gcd_comm b), Z.gcd_mod by lia. apply Z.gcd_comm. }
    set (b1 := a mod b) in *.
    destruct (b1 =? 0) eqn:E1.
    + cbn. rewrite G1. assert (b1 = 0) as -> by lia. rewrite Z.gcd_0_r. lia.
    + assert (Hb2 : 0 <= b mod b1 < b1) by (apply Z.mod_pos_bound; lia).
      assert (G2 : Z.gcd b b1 = Z.gcd b1 (b mod b1)).
      { rewrite (Z.gcd_comm b1), Z.gcd_mod by lia. apply Z.gcd_comm. }
      specialize (IH b1 (b mod b1) f).
      destruct (egcd f b1 (b mod b1)) as [[g u] v] eqn:Eg. cbn [fst] in *.
      rewrite G1, G2. apply IH; [lia| |lia].
      split; [lia|].
      assert (2 * (b mod b1) < b).
      { pose proof (Z.div_mod b b1 ltac:(lia)). assert (1 <= b / b1) by (apply Z.div_le_lower_bound; lia). nia. }
      rewrite Nat2Z.inj_succ, Z.pow_succ_r in Hb by lia. lia.
Qed.

Lemma invert_g a b : 0 < b -> fst (fst (egcd (Z.to_nat (2 * Z.log2 b + 3)) (a mod b) b)) = Z.gcd a b.
Proof.
  intros Hb. rewrite (egcd_gcd (Z.to_nat (Z.log2 b + 1))).
  - rewrite Z.gcd_mod by lia. apply Z.gcd_comm.
  - apply Z.mod_pos_bound. lia.
  - pose proof (Z.log2_nonneg b). rewrite Z2Nat.id by lia. pose proof (Z.log2_spec b Hb) as [_ HL].
    rewrite Z.add_1_r. lia.
  - pose proof (Z.log2_nonneg b). lia.
Qed.

Lemma invert_ok a b : 1 < b -> rel_prime a b -> exists x, invert a b = Ok x /\ 0 < x < b /\ cong b (a * x) 1.
Proof.
  intros Hb Hr. unfold invert. pose proof (invert_g a b ltac:(lia)) as G.
  pose proof (egcd_bezout (Z.to_nat (2 * Z.log2 b + 3)) (a mod b) b) as B.
  destruct (egcd _ _ _) as [[g u] v]. cbn [fst] in G.
  assert (g = 1) as ->. { rewrite G. now apply Zgcd_1_rel_prime. }
  assert (C : cong b (a * (u mod b)) 1).
  { apply cong_trans with (a * u).
    { apply cong_mul; [apply cong_refl|apply cong_mod; lia]. }
    apply cong_trans with ((a mod b) * u).
    { apply cong_mul; [apply cong_sym, cong_mod; lia|apply cong_refl]. }
    exists (- v). lia. }
  assert (Hu : 0 <= u mod b < b) by (apply Z.mod_pos_bound; lia).
  assert (u mod b <> 0).
  { intros E. rewrite E in C. destruct C as [k C]. assert (b | 1) by (exists (- k); lia).
    apply Z.divide_1_r_nonneg in H; lia. }
  cbn [Z.eqb]. exists (u mod b). rewrite (proj2 (Z.eqb_neq _ _)) by assumption. cbn.
  split; [reflexivity|]. split; [lia|exact C].
Qed.

Lemma invert_err a b : 1 < b -> ~ rel_prime a b -> invert a b = Err ZeroDivisionError.
Proof.
  intros Hb Hr. unfold invert. pose proof (invert_g a b ltac:(lia)) as G.
  destruct (egcd _ _ _) as [[g u] v]. cbn [fst] in G.
  rewrite (proj2 (Z.eqb_neq g 1)); [reflexivity|]. rewrite G. intros E. apply Hr. now apply Zgcd_1_rel_prime.
Qed.

Lemma invert_inv a b x : 1 < b -> invert a b = Ok x -> 0 < x < b /\ cong b (a * x) 1 /\ rel_prime a b.
Proof.
  intros Hb H. destruct (rel_prime_dec a b) as [Hr|Hr].
  - destruct (invert_ok a b Hb Hr) as (y & E & R). rewrite E in H. injection H as <-. tauto.
  - rewrite invert_err in H by assumption. discriminate.
Qed.

(** ** First-order expansion modulo p^2 *)
Lemma pow_1px p x k : 0 <= k -> cong (p * p) ((1 + x * p) ^ k) (1 + k * x * p).
Proof.
  intros Hk. pattern k. apply natlike_ind; [apply cong_eq; cbn; lia| |exact Hk].
  intros j Hj IH. rewrite Z.pow_succ_r by exact Hj.
  apply cong_trans with ((1 + x * p) * (1 + j * x * p)).
  - apply cong_mul; [apply cong_refl|exact IH].
  - exists (j * x * x). unfold Z.succ. ring.
Qed.

Lemma prime_gt1 p : prime p -> 1 < p.
Proof. now intros []. Qed.

Lemma fermat_ex p c : prime p -> ~ (p | c) -> exists x, cong (p * p) (c ^ (p - 1)) (1 + x * p).
Proof.
  intros Hp Hc. pose proof (prime_gt1 p Hp). pose proof (fermat_Z p c Hp Hc) as F.
  exists ((c ^ (p - 1)) / p). apply cong_eq. pose proof (Z.div_mod (c ^ (p - 1)) p). lia.
Qed.

(** ** The private key *)
Section key.
Variables p q : Z.
Hypothesis Hp : prime p.
Hypothesis Hq : prime q.
Hypothesis Hpq : p <> q.
Let n := p * q.

Lemma pq_rel_prime : rel_prime p q.
Proof.
  apply prime_rel_prime; [exact Hp|]. intros D.
  apply prime_div_prime in D; auto.
Qed.

Lemma l_func_cong x y : 0 <= x < p * p -> cong (p * p) x (1 + y * p) -> l_func x p = y mod p.
Proof.
  pose proof (prime_gt1 p Hp). intros Hx [k E]. unfold l_func.
  assert (Ex : x - 1 = (y + k * p) * p) by lia. rewrite Ex, Z.div_mul by lia.
  assert (0 <= y + k * p < p) by nia.
  rewrite <- (Z.mod_add y k p) by lia. now rewrite Z.mod_small.
Qed.

Lemma h_func_ok : exists h, h_func n p (p * p) = Ok h /\ cong p (((p - 1) * q) * h) 1.
Proof.
  pose proof (prime_gt1 p Hp). unfold h_func.
  assert (E : l_func (powmod (pk_g n) (p - 1) (p * p)) p = ((p - 1) * q) mod p).
  { apply l_func_cong; [apply powmod_range; nia|].
    eapply cong_trans; [apply powmod_cong; nia|].
    replace (pk_g n) with (1 + q * p) by (unfold pk_g, n; ring). apply pow_1px. lia. }
  rewrite E.
  assert (R : rel_prime (((p - 1) * q) mod p) p).
  { apply rel_prime_mod; [lia|]. apply rel_prime_sym. apply rel_prime_mult.
    - apply rel_prime_sym. apply rel_prime_le_prime; [exact Hp|lia].
    - apply pq_rel_prime. }
  destruct (invert_ok (((p - 1) * q) mod p) p ltac:(lia) R) as (h & Hh & _ & C).
  exists h. split; [exact Hh|]. eapply cong_trans; [|exact C].
  apply cong_mul; [apply cong_sym, cong_mod; lia|apply cong_refl].
Qed.

(** The residue modulo p that decryption computes from c. *)
Lemma half_decrypt h c m :
  cong p (((p - 1) * q) * h) 1 ->
  cong (p * p) (c ^ (p - 1)) (1 + (p - 1) * (q * m) * p) ->
  l_func (powmod c (p - 1) (p * p)) p * h mod p = m mod p.
Proof.
  pose proof (prime_gt1 p Hp). intros Hh Hc.
  rewrite (l_func_cong _ ((p - 1) * (q * m))).
  - apply cong_mod_eq; [lia|].
    apply cong_trans with ((p - 1) * (q * m) * h); [apply cong_mul; [apply cong_mod; lia|apply cong_refl]|].
    replace ((p - 1) * (q * m) * h) with (m * ((p - 1) * q * h)) by ring.
    replace m with (m * 1) at 2 by ring. apply cong_mul; [apply cong_refl|exact Hh].
  - apply powmod_range; nia.
  - eapply cong_trans; [apply powmod_cong; nia|exact Hc].
Qed.
End key.

(** [half p q c m]: c is an encryption of m as far as the prime p can see. *)
Definition half (p q c m : Z) : Prop := cong (p * p) (c ^ (p - 1)) (1 + (p - 1) * (q * m) * p).

Section half.
Variables p q : Z.
Hypothesis Hp : prime p.
Hypothesis Hq : prime q.
Hypothesis Hpq : p <> q.

Lemma half_mul c d m m' : half p q c m -> half p q d m' -> half p q (c * d) (m + m').
Proof.
  unfold half. intros H1 H2. rewrite Z.pow_mul_l.
  eapply cong_trans; [apply cong_mul; [exact H1|exact H2]|].
  exists ((p - 1) * (q * m) * ((p - 1) * (q * m'))). ring.
Qed.

Lemma half_1 : half p q 1 0.
Proof. unfold half. pose proof (prime_gt1 p Hp). rewrite Z.pow_1_l by lia. apply cong_eq. ring. Qed.

Lemma half_pow c m k : 0 <= k -> half p q c m -> half p q (c ^ k) (k * m).
Proof.
  intros Hk H. pattern k. apply natlike_ind; [apply half_1| |exact Hk].
  intros j Hj IH. rewrite Z.pow_succ_r by exact Hj. replace (Z.succ j * m) with (m + j * m) by lia.
  now apply half_mul.
Qed.

Lemma half_cong c d m N : (p * p | N) -> cong N c d -> half p q c m -> half p q d m.
Proof.
  unfold half. pose proof (prime_gt1 p Hp). intros HN C H1. eapply cong_trans; [|exact H1].
  apply cong_pow; [lia|]. apply cong_sym. exact (cong_weaken N _ _ _ HN C).
Qed.

Lemma half_m_cong c m m' : cong p m m' -> half p q c m -> half p q c m'.
Proof.
  unfold half. intros [k E] H. eapply cong_trans; [exact H|]. exists ((p - 1) * q * k).
  replace m with (m' + k * p) by lia. ring.
Qed.

Lemma half_plain m : half p q (1 + p * q * m) m.
Proof.
  unfold half. pose proof (prime_gt1 p Hp). replace (p * q * m) with (q * m * p) by ring.
  apply pow_1px. lia.
Qed.

Lemma half_obf r : ~ (p | r) -> half p q (r ^ (p * q)) 0.
Proof.
  intros Hr. unfold half. pose proof (prime_gt1 p Hp). pose proof (prime_gt1 q Hq).
  destruct (fermat_ex p r Hp Hr) as [x Hx].
  replace (1 + (p - 1) * (q * 0) * p) with 1 by ring.
  rewrite <- Z.pow_mul_r by nia. rewrite (Z.mul_comm (p * q)), Z.pow_mul_r by nia.
  eapply cong_trans; [apply cong_pow; [nia|exact Hx]|].
  eapply cong_trans; [apply pow_1px; nia|]. exists (q * x). ring.
Qed.

Lemma half_inv c d m : cong (p * p) (c * d) 1 -> half p q c m -> half p q d (- m).
Proof.
  pose proof (prime_gt1 p Hp). unfold half. intros Hcd Hc.
  assert (H1 : cong (p * p) (c ^ (p - 1) * d ^ (p - 1)) 1).
  { rewrite <- Z.pow_mul_l. apply cong_trans with (1 ^ (p - 1)).
    - apply cong_pow; [lia|exact Hcd].
    - apply cong_eq, Z.pow_1_l. lia. }
  set (A := (p - 1) * (q * m) * p) in *.
  assert (H2 : cong (p * p) ((1 + A) * d ^ (p - 1)) 1).
  { eapply cong_trans; [|exact H1]. apply cong_mul; [apply cong_sym; exact Hc|apply cong_refl]. }
  replace (1 + (p - 1) * (q * - m) * p) with (1 - A) by (unfold A; ring).
  apply cong_trans with ((1 - A) * ((1 + A) * d ^ (p - 1))).
  - exists (((p - 1) * (q * m)) * ((p - 1) * (q * m)) * d ^ (p - 1)). unfold A. ring.
  - replace (1 - A) with ((1 - A) * 1) at 2 by ring. apply cong_mul; [apply cong_refl|exact H2].
Qed.

Lemma half_unit c m : half p q c m -> ~ (p | c).
Proof.
  unfold half. pose proof (prime_gt1 p Hp). intros [k E] D.
  assert (D1 : (p | c ^ (p - 1))).
  { replace (p - 1) with (Z.succ (p - 2)) by lia. rewrite Z.pow_succ_r by lia. now apply Z.divide_mul_l. }
  destruct D1 as [j D1]. rewrite D1 in E.
  assert (p | 1) by (exists (j - (p - 1) * (q * m) - k * p); lia).
  apply Z.divide_1_r_nonneg in H0; lia.
Qed.

(** Every c prime to p is an encryption of something modulo p. *)
Lemma half_exists c : ~ (p | c) -> exists m, half p q c m.
Proof.
  intros Hc. pose proof (prime_gt1 p Hp). destruct (fermat_ex p c Hp Hc) as [x Hx].
  destruct (h_func_ok p q Hp Hq Hpq) as (h & _ & Hh).
  exists (h * x). unfold half. eapply cong_trans; [exact Hx|].
  destruct Hh as [k Hk]. exists (- k * x).
  replace ((p - 1) * (q * (h * x))) with (((p - 1) * q * h) * x) by ring.
  replace ((p - 1) * q * h) with (1 + k * p) by lia. ring.
Qed.
End half.

(** ** Chinese remaindering *)
Lemma crt_unique p q a b : rel_prime p q -> cong p a b -> cong q a b -> cong (p * q) a b.
Proof.
  intros Hr [k E] [l F]. assert (D : (q | k)).
  { apply Gauss with p; [exists l; lia|now apply rel_prime_sym]. }
  destruct D as [j ->]. exists j. lia.
Qed.

(** [sk_for sk p q]: sk is the private key the constructor builds from p and q. *)
Lemma mk_privkey_ok p q : prime p -> prime q -> p <> q ->
  exists sk, mk_privkey (p * q) p q = Ok sk /\ sk_n sk = p * q /\
    sk_p sk = Z.min p q /\ sk_q sk = Z.max p q /\
    cong (sk_p sk) (sk_q sk * sk_qinv sk) 1 /\
    cong (sk_p sk) ((sk_p sk - 1) * sk_q sk * sk_hp sk) 1 /\
    cong (sk_q sk) ((sk_q sk - 1) * sk_p sk * sk_hq sk) 1.
Proof.
  intros Hp Hq Hpq. unfold mk_privkey. rewrite Z.eqb_refl. cbn [negb].
  rewrite (proj2 (Z.eqb_neq p q)) by exact Hpq.
  set (p' := if q <? p then q else p). set (q' := if q <? p then p else q).
  assert (E : (if q <? p then (q, p) else (p, q)) = (p', q')) by (unfold p', q'; now destruct (q <? p)).
  rewrite E.
  assert (Hp' : prime p') by (unfold p'; now destruct (q <? p)).
  assert (Hq' : prime q') by (unfold q'; now destruct (q <? p)).
  assert (Hpq' : p' <> q') by (unfold p', q'; destruct (q <? p); lia).
  assert (Hmin : p' = Z.min p q) by (unfold p'; destruct (q <? p) eqn:?; lia).
  assert (Hmax : q' = Z.max p q) by (unfold q'; destruct (q <? p) eqn:?; lia).
  assert (Hn1 : p * q = p' * q') by (unfold p', q'; destruct (q <? p); ring).
  assert (Hn2 : p * q = q' * p') by (rewrite Hn1; ring).
  destruct (invert_ok q' p' (prime_gt1 _ Hp')) as (qi & Hqi & _ & Cqi).
  { apply rel_prime_sym, pq_rel_prime; assumption. }
  destruct (h_func_ok p' q' Hp' Hq' Hpq') as (hp & Hhp & Chp).
  destruct (h_func_ok q' p' Hq' Hp' (not_eq_sym Hpq')) as (hq & Hhq & Chq).
  rewrite Hqi. cbn [mbind res_bind]. rewrite <- Hn1 in Hhp. rewrite Hhp. cbn [mbind res_bind].
  rewrite <- Hn2 in Hhq. rewrite Hhq. cbn [mbind res_bind].
  eexists. split; [reflexivity|]. cbn [sk_n sk_p sk_q sk_qinv sk_hp sk_hq].
  rewrite <- Hmin, <- Hmax. auto 10.
Qed.

Record good_sk (sk : privkey) : Prop := GoodSk {
  gs_p : prime (sk_p sk);
  gs_q : prime (sk_q sk);
  gs_pq : sk_p sk < sk_q sk;
  gs_n : sk_n sk = sk_p sk * sk_q sk;
  gs_qi : cong (sk_p sk) (sk_q sk * sk_qinv sk) 1;
  gs_hp : cong (sk_p sk) ((sk_p sk - 1) * sk_q sk * sk_hp sk) 1;
  gs_hq : cong (sk_q sk) ((sk_q sk - 1) * sk_p sk * sk_hq sk) 1 }.

Lemma mk_privkey_good n p q sk : prime p -> prime q -> mk_privkey n p q = Ok sk ->
  good_sk sk /\ n = p * q /\ p <> q /\ sk_n sk = n.
Proof.
  intros Hp Hq H.
  assert (En : p * q = n).
  { destruct (Z.eq_dec (p * q) n) as [E|E]; [exact E|]. unfold mk_privkey in H.
    rewrite (proj2 (Z.eqb_neq _ _) E) in H. discriminate. }
  assert (Hpq : p <> q).
  { intros E. unfold mk_privkey in H. rewrite En, Z.eqb_refl in H. cbn [negb] in H.
    rewrite (proj2 (Z.eqb_eq _ _) E) in H. discriminate. }
  subst n. destruct (mk_privkey_ok p q Hp Hq Hpq) as (sk' & Hsk & E1 & E2 & E3 & C1 & C2 & C3).
  rewrite Hsk in H. injection H as ->.
  assert (P1 : prime (sk_p sk)) by (rewrite E2; destruct (Z.min_spec p q) as [[_ ->]|[_ ->]]; assumption).
  assert (P2 : prime (sk_q sk)) by (rewrite E3; destruct (Z.max_spec p q) as [[_ ->]|[_ ->]]; assumption).
  assert (P3 : sk_p sk < sk_q sk) by (rewrite E2, E3; lia).
  assert (P4 : sk_n sk = sk_p sk * sk_q sk).
  { rewrite E1, E2, E3. destruct (Z.min_spec p q) as [[? ->]|[? ->]], (Z.max_spec p q) as [[? ->]|[? ->]]; nia. }
  split; [exact (GoodSk sk P1 P2 P3 P4 C1 C2 C3)|]. auto.
Qed.

(** [encr sk c m]: c is an encryption of m under the key. *)
Definition encr (sk : privkey) (c m : Z) : Prop :=
  half (sk_p sk) (sk_q sk) c m /\ half (sk_q sk) (sk_p sk) c m.

Section encr.
Variable sk : privkey.
Hypothesis G : good_sk sk.
Local Notation p := (sk_p sk).
Local Notation q := (sk_q sk).
Local Notation n := (sk_n sk).

Lemma g_rel : rel_prime p q.
Proof. destruct G. apply pq_rel_prime; try assumption. lia. Qed.
Lemma g_n : n = p * q.
Proof. apply (gs_n sk G). Qed.
Lemma g_n6 : 6 <= n.
Proof.
  pose proof (prime_gt1 _ (gs_p sk G)). pose proof (gs_pq sk G). rewrite g_n. nia.
Qed.
Lemma g_dp : (p * p | n * n).
Proof. exists (q * q). rewrite g_n. ring. Qed.
Lemma g_dq : (q * q | n * n).
Proof. exists (p * p). rewrite g_n. ring. Qed.

Lemma crt_ok mp mq m : cong p mp m -> cong q mq m -> sk_crt sk mp mq = m mod n.
Proof.
  intros H1 H2. unfold sk_crt. pose proof g_n6.
  pose proof (prime_gt1 _ (gs_p sk G)).
  apply cong_mod_eq; [lia|]. rewrite g_n. apply crt_unique; [apply g_rel| |].
  - set (u := (mp - mq) * sk_qinv sk).
    apply cong_trans with (mq + u * q).
    { apply cong_add; [apply cong_refl|]. apply cong_mul; [apply cong_mod; lia|apply cong_refl]. }
    apply cong_trans with (mq + (mp - mq) * 1).
    { apply cong_add; [apply cong_refl|]. unfold u. rewrite <- Z.mul_assoc, (Z.mul_comm _ q).
      apply cong_mul; [apply cong_refl|apply (gs_qi sk G)]. }
    eapply cong_trans; [|exact H1]. apply cong_eq. ring.
  - eapply cong_trans; [|exact H2]. eexists. rewrite Z.add_simpl_l. reflexivity.
Qed.

Lemma encr_decrypt c m : encr sk c m -> sk_raw_decrypt sk c = m mod n.
Proof.
  intros [H1 H2]. destruct G. unfold sk_raw_decrypt.
  pose proof (prime_gt1 p gs_p0). pose proof (prime_gt1 q gs_q0).
  rewrite (half_decrypt p q gs_p0 (sk_hp sk) c m); try assumption.
  rewrite (half_decrypt q p gs_q0 (sk_hq sk) c m); try assumption.
  apply crt_ok; apply cong_mod; lia.
Qed.

Lemma encr_mul c d m m' : encr sk c m -> encr sk d m' -> encr sk (c * d) (m + m').
Proof. intros [] []. split; apply half_mul; assumption. Qed.
Lemma encr_cong c d m : cong (n * n) c d -> encr sk c m -> encr sk d m.
Proof.
  destruct G. intros C [H1 H2]. split; (eapply half_cong; [assumption| |exact C|eassumption]).
  - apply g_dp. - apply g_dq.
Qed.
Lemma encr_mod c m : encr sk c m -> encr sk (c mod (n * n)) m.
Proof. apply encr_cong. apply cong_sym, cong_mod. pose proof g_n6. nia. Qed.
Lemma encr_m c m m' : cong n m m' -> encr sk c m -> encr sk c m'.
Proof.
  intros C [H1 H2]. split; (eapply half_m_cong; [|eassumption]);
  (eapply cong_weaken; [|exact C]); rewrite g_n.
  - exists q. ring. - exists p. ring.
Qed.
Lemma encr_pow c m k : 0 <= k -> encr sk c m -> encr sk (c ^ k) (k * m).
Proof. destruct G. intros Hk []. split; apply half_pow; assumption. Qed.
Lemma encr_powmod c m k : 0 <= k -> encr sk c m -> encr sk (powmod c k (n * n)) (k * m).
Proof.
  intros Hk H. pose proof g_n6. eapply encr_cong; [|apply encr_pow; eassumption].
  apply cong_sym, powmod_cong; nia.
Qed.
Lemma encr_plain m : encr sk (n * m + 1) m.
Proof.
  destruct G. rewrite g_n. split.
  - replace (p * q * m + 1) with (1 + p * q * m) by ring. now apply half_plain.
  - replace (p * q * m + 1) with (1 + q * p * m) by ring. now apply half_plain.
Qed.
Lemma unit_split r : rel_prime r n -> ~ (p | r) /\ ~ (q | r).
Proof.
  destruct G. pose proof (prime_gt1 _ gs_p0). pose proof (prime_gt1 _ gs_q0).
  intros Hr. rewrite g_n in Hr. destruct Hr as [_ _ Hr]. split; intros D.
  - assert (p | 1) by (apply Hr; [exact D|exists q; ring]). apply Z.divide_1_r_nonneg in H1; lia.
  - assert (q | 1) by (apply Hr; [exact D|exists p; ring]). apply Z.divide_1_r_nonneg in H1; lia.
Qed.
Lemma encr_obf r : rel_prime r n -> encr sk (r ^ n) 0.
Proof.
  intros Hr. destruct (unit_split r Hr) as [H1 H2]. destruct G. rewrite g_n. split.
  - apply half_obf; (assumption || lia).
  - rewrite Z.mul_comm. apply half_obf; (assumption || lia).
Qed.
Lemma encr_inv c d m : cong (n * n) (c * d) 1 -> encr sk c m -> encr sk d (- m).
Proof.
  destruct G. intros C [H1 H2]. split; (eapply half_inv; [assumption| |eassumption]);
  (eapply cong_weaken; [|exact C]).
  - apply g_dp. - apply g_dq.
Qed.
Lemma encr_unit c m : encr sk c m -> rel_prime c (n * n).
Proof.
  destruct G. intros [H1 H2].
  assert (A : rel_prime c p).
  { apply rel_prime_sym, prime_rel_prime; [assumption|]. eapply half_unit; eassumption. }
  assert (B : rel_prime c q).
  { apply rel_prime_sym, prime_rel_prime; [assumption|]. eapply half_unit; eassumption. }
  rewrite g_n. apply rel_prime_mult; apply rel_prime_mult; assumption.
Qed.
Lemma unit_encr c : rel_prime c n -> encr sk c (sk_raw_decrypt sk c).
Proof.
  intros Hc. destruct (unit_split c Hc) as [H1 H2]. pose proof G as [? ? Hlt ? ? ? ?].
  destruct (half_exists p q gs_p0 gs_q0 ltac:(lia) c H1) as [m1 E1].
  destruct (half_exists q p gs_q0 gs_p0 ltac:(lia) c H2) as [m2 E2].
  (* one m for both primes *)
  assert (X : exists m, cong p m1 m /\ cong q m2 m).
  { pose proof (gs_qi sk G) as [k Hk].
    exists (m2 + (m1 - m2) * sk_qinv sk * q). split.
    - exists (- (m1 - m2) * k).
      replace (m1 - (m2 + (m1 - m2) * sk_qinv sk * q)) with (- (m1 - m2) * (q * sk_qinv sk - 1)) by ring.
      rewrite Hk. ring.
    - exists (- (m1 - m2) * sk_qinv sk). ring. }
  destruct X as (m & C1 & C2).
  assert (E : encr sk c m).
  { split; [eapply half_m_cong; [exact C1|exact E1]|eapply half_m_cong; [exact C2|exact E2]]. }
  rewrite (encr_decrypt c m E). eapply encr_m; [|exact E]. apply cong_sym, cong_mod. pose proof g_n6. lia.
Qed.
Lemma rel_prime_sq c : rel_prime c n -> rel_prime c (n * n).
Proof. intros H. now apply rel_prime_mult. Qed.
Lemma encr_invert c m : encr sk c m -> exists d, invert c (n * n) = Ok d /\ encr sk d (- m).
Proof.
  intros H. pose proof g_n6. destruct (invert_ok c (n * n) ltac:(nia) (encr_unit c m H)) as (d & Hd & _ & C).
  exists d. split; [exact Hd|]. eapply encr_inv; eassumption.
Qed.

(** ** Encryption *)
Lemma obf_ok c m rv fresh :
  rel_prime (match rv with Some r => if r =? 0 then fresh else r | None => fresh end) n ->
  encr sk c m -> encr sk (pk_apply_obfuscator n c rv fresh) m.
Proof.
  intros Hr Hc. unfold pk_apply_obfuscator, pk_nsquare. apply encr_mod.
  set (r := match rv with Some r => _ | None => _ end) in *.
  replace m with (m + 0) by ring. apply encr_mul; [exact Hc|].
  pose proof g_n6. eapply encr_cong; [apply cong_sym, powmod_cong; nia|]. now apply encr_obf.
Qed.

Lemma max_int_bounds : 0 <= pk_max_int n /\ 3 * pk_max_int n + 3 <= n < 3 * pk_max_int n + 6.
Proof.
  unfold pk_max_int. pose proof g_n6. pose proof (Z.div_mod n 3). pose proof (Z.mod_pos_bound n 3). lia.
Qed.

Lemma raw_encrypt_ok m rv fresh :
  0 <= m < n ->
  rel_prime (match rv with Some r => if r =? 0 then fresh else r | None => fresh end) n ->
  exists c, pk_raw_encrypt n m rv fresh = Ok c /\ encr sk c m.
Proof.
  intros Hm Hr. unfold pk_raw_encrypt. pose proof g_n6.
  destruct ((n - pk_max_int n <=? m) && (m <? n)) eqn:E.
  - assert (H1 : encr sk ((n * (n - m) + 1) mod pk_nsquare n) (n - m)) by apply encr_mod, encr_plain.
    destruct (encr_invert _ _ H1) as (d & Hd & Ed).
    change (n * n) with (pk_nsquare n) in Hd. rewrite Hd. cbn [mbind res_bind].
    eexists. split; [reflexivity|]. apply obf_ok; [exact Hr|].
    eapply encr_m; [|exact Ed]. exists (-1). lia.
  - cbn [mbind res_bind]. eexists. split; [reflexivity|]. apply obf_ok; [exact Hr|]. apply encr_mod, encr_plain.
Qed.
End encr.
