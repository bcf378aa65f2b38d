From Verif Require Import PyBase QcBase FixedPointModel FixedPointSpec FixedPointProofs PaillierModel PaillierSpec PaillierProofs.
From Coq Require Import ZArith Znumtheory Zpow_facts Lia ZifyBool.
Local Open Scope Z_scope.

Lemma keypair_good n sk : keypair n sk -> good_sk sk /\ sk_n sk = n.
Proof. intros (p & q & Hp & Hq & H). destruct (mk_privkey_good n p q sk Hp Hq H) as (G & _ & _ & E). auto. Qed.

Lemma gcd_rel a n : Z.gcd a n = 1 <-> rel_prime a n.
Proof. apply Zgcd_1_rel_prime. Qed.

Section sk.
Variable sk : privkey.
Hypothesis G : good_sk sk.
Local Notation n := (sk_n sk).

Lemma en_mant_encr x M : en_mant sk x M <-> en_pk x = n /\ encr sk (en_ct x) M.
Proof.
  unfold en_mant. rewrite gcd_rel. split.
  - intros (H1 & H2 & H3). split; [exact H1|].
    eapply (encr_m sk G); [|apply (unit_encr sk G); exact H2]. rewrite H3. apply cong_mod.
    pose proof (g_n6 sk G). lia.
  - intros (H1 & H2). split; [exact H1|]. split; [|now apply (encr_decrypt sk G)].
    apply rel_prime_sym. apply rel_prime_div with (n * n); [|exists n; ring].
    apply rel_prime_sym. now apply (encr_unit sk G) with M.
Qed.

Lemma raw_decrypt_range c : 0 <= sk_raw_decrypt sk c < n.
Proof.
  unfold sk_raw_decrypt, sk_crt. cbv zeta. apply Z.mod_pos_bound. pose proof (g_n6 sk G). lia.
Qed.

Lemma crt_residues mp mq : cong (sk_p sk) (sk_crt sk mp mq) mp /\ cong (sk_q sk) (sk_crt sk mp mq) mq.
Proof.
  assert (X : exists m, cong (sk_p sk) mp m /\ cong (sk_q sk) mq m).
  { pose proof (gs_qi sk G) as [k Hk].
    exists (mq + (mp - mq) * sk_qinv sk * sk_q sk). split.
    - exists (- (mp - mq) * k).
      replace (mp - (mq + (mp - mq) * sk_qinv sk * sk_q sk)) with (- (mp - mq) * (sk_q sk * sk_qinv sk - 1)) by ring.
      rewrite Hk. ring.
    - exists (- (mp - mq) * sk_qinv sk). ring. }
  destruct X as (m & H1 & H2). rewrite (crt_ok sk G mp mq m H1 H2).
  pose proof (g_n6 sk G). pose proof (gs_n sk G).
  assert (C : cong n (m mod n) m) by (apply cong_mod; lia).
  split; (eapply cong_trans; [eapply cong_weaken; [|exact C]|apply cong_sym; eassumption]).
  - exists (sk_q sk). lia.
  - exists (sk_p sk). lia.
Qed.

(** ** Obfuscation values that are not prime to n *)
Lemma bad_half p c : prime p -> (p * p | c) -> l_func (powmod c (p - 1) (p * p)) p = -1.
Proof.
  intros Hp D. pose proof (prime_gt1 p Hp) as H1.
  assert (E : powmod c (p - 1) (p * p) = 0).
  { unfold powmod. destruct (c =? 1) eqn:Ec.
    - assert (c = 1) as -> by lia. apply Z.divide_1_r_nonneg in D; nia.
    - rewrite Zpow_mod_correct by nia. apply Z.mod_divide; [nia|].
      replace (p - 1) with (Z.succ (p - 2)) by lia. rewrite Z.pow_succ_r by lia. now apply Z.divide_mul_l. }
  rewrite E. unfold l_func. symmetry. apply Z.div_unique with (p - 1); lia.
Qed.

Lemma prime_sq_pow p r k : (p | r) -> 2 <= k -> (p * p | r ^ k).
Proof.
  intros [a ->] Hk. replace k with (2 + (k - 2)) by lia. rewrite Z.pow_add_r by lia.
  apply Z.divide_mul_l. exists (a * a). cbn. ring.
Qed.

Lemma bad_obf_div p r c : prime p -> (p | n) -> (p | r) -> (p * p | pk_apply_obfuscator n c (Some r) r).
Proof.
  intros Hp [a Hn] Hr. pose proof (g_n6 sk G). pose proof (prime_gt1 p Hp).
  unfold pk_apply_obfuscator, pk_nsquare.
  assert (Er : (if r =? 0 then r else r) = r) by now destruct (r =? 0). rewrite Er.
  assert (D1 : (p * p | n * n)) by (exists (a * a); rewrite Hn; ring).
  assert (Hx : cong (n * n) (c * powmod r n (n * n) mod (n * n)) (c * r ^ n)).
  { eapply cong_trans; [apply cong_mod; nia|]. apply cong_mul; [apply cong_refl|]. apply powmod_cong; nia. }
  apply (cong_weaken _ (p * p)) in Hx; [|exact D1].
  assert (D2 : (p * p | c * r ^ n)) by (apply Z.divide_mul_r, prime_sq_pow; [exact Hr|lia]).
  destruct Hx as [k Hk], D2 as [l Hl]. exists (k + l). lia.
Qed.

Lemma bad_obfuscator r : 1 <= r < n -> Z.gcd r n <> 1 ->
  exists m, (m = 0 \/ m = 1) /\
    exists c, pk_raw_encrypt n m (Some r) r = Ok c /\ sk_raw_decrypt sk c <> m.
Proof.
  intros Hr Hg. pose proof (g_n6 sk G) as Hn6. pose proof (max_int_bounds sk G) as [Hm0 Hm].
  assert (E0 : pk_raw_encrypt n 0 (Some r) r = Ok (pk_apply_obfuscator n ((n * 0 + 1) mod pk_nsquare n) (Some r) r)).
  { unfold pk_raw_encrypt. rewrite (proj2 (Z.leb_gt _ 0)) by lia. reflexivity. }
  assert (E1 : pk_raw_encrypt n 1 (Some r) r = Ok (pk_apply_obfuscator n ((n * 1 + 1) mod pk_nsquare n) (Some r) r)).
  { unfold pk_raw_encrypt. rewrite (proj2 (Z.leb_gt _ 1)) by lia. reflexivity. }
  set (c0 := pk_apply_obfuscator n ((n * 0 + 1) mod pk_nsquare n) (Some r) r) in *.
  set (c1 := pk_apply_obfuscator n ((n * 1 + 1) mod pk_nsquare n) (Some r) r) in *.
  assert (K : exists p, prime p /\ cong p (sk_raw_decrypt sk c0) (sk_raw_decrypt sk c1)).
  { pose proof G as [Hp Hq Hlt Hnn _ _ _].
    assert (Hd : (sk_p sk | r) \/ (sk_q sk | r)).
    { destruct (Zdivide_dec (sk_p sk) r) as [|N1]; [now left|].
      destruct (Zdivide_dec (sk_q sk) r) as [|N2]; [now right|]. exfalso. apply Hg, gcd_rel.
      rewrite Hnn. apply rel_prime_mult; apply rel_prime_sym, prime_rel_prime; assumption. }
    destruct Hd as [Hd|Hd].
    - exists (sk_p sk). split; [exact Hp|].
      assert (D : forall c, (sk_p sk * sk_p sk | c) ->
                cong (sk_p sk) (sk_raw_decrypt sk c) ((-1 * sk_hp sk) mod sk_p sk)).
      { intros c Hc. unfold sk_raw_decrypt. cbv zeta. rewrite (bad_half (sk_p sk) c Hp Hc).
        apply crt_residues. }
      assert (Dn : (sk_p sk | n)) by (exists (sk_q sk); lia).
      eapply cong_trans; [apply D, bad_obf_div; assumption|].
      apply cong_sym, D, bad_obf_div; assumption.
    - exists (sk_q sk). split; [exact Hq|].
      assert (D : forall c, (sk_q sk * sk_q sk | c) ->
                cong (sk_q sk) (sk_raw_decrypt sk c) ((-1 * sk_hq sk) mod sk_q sk)).
      { intros c Hc. unfold sk_raw_decrypt. cbv zeta. rewrite (bad_half (sk_q sk) c Hq Hc).
        apply crt_residues. }
      assert (Dn : (sk_q sk | n)) by (exists (sk_p sk); lia).
      eapply cong_trans; [apply D, bad_obf_div; assumption|].
      apply cong_sym, D, bad_obf_div; assumption. }
  destruct (Z.eq_dec (sk_raw_decrypt sk c0) 0) as [Z0|N0].
  - exists 1. split; [now right|]. exists c1. split; [exact E1|]. intros Z1.
    destruct K as (p & Hp & [k Hk]). rewrite Z0, Z1 in Hk. pose proof (prime_gt1 p Hp).
    assert (D : (p | 1)) by (exists (- k); lia). apply Z.divide_1_r_nonneg in D; lia.
  - exists 0. split; [now left|]. exists c0. auto.
Qed.

(** ** Encoding with the key's modulus *)
Lemma fp_encode_mant s prec me f : fp_encode s (Some (n, pk_max_int n)) prec me = Ok f ->
  exists m, fp_mant f m /\ fp_n f = n /\ fp_max f = pk_max_int n /\
    (match me with Some e => e <= fp_exp f | None => True end).
Proof.
  pose proof (max_int_bounds sk G). unfold fp_encode.
  set (x := if qltb _ _ then _ else _). set (e := match me with Some m => _ | None => _ end).
  destruct (scaled_round x e) as [i|]; [|discriminate]. cbn [mbind res_bind].
  destruct (pk_max_int n <? Z.abs i) eqn:E; [discriminate|]. intros [= <-].
  exists i. split; [apply encode_mant; lia|]. repeat split. cbn [fp_exp]. subst e. destruct me; [lia|exact I].
Qed.

Lemma mant_mod_cong f m : fp_mant f m -> fp_n f = n -> 0 <= fp_enc f < n /\ cong n (fp_enc f) m.
Proof.
  intros (H0 & H1 & H2 & H3) En. rewrite En in *. rewrite H3. pose proof (g_n6 sk G).
  split; [apply Z.mod_pos_bound; lia|apply cong_mod; lia].
Qed.

(** ** Operations on encrypted numbers *)
Lemma pk_encrypt_ok v prec fresh f m :
  fp_encode v (Some (n, pk_max_int n)) prec None = Ok f -> fp_mant f m -> Z.gcd fresh n = 1 ->
  exists x, pk_encrypt n v prec None fresh = Ok x /\ en_mant sk x m /\ en_exp x = fp_exp f.
Proof.
  intros Hf Hm Hr%gcd_rel. unfold pk_encrypt. rewrite Hf. cbn [mbind res_bind].
  destruct (fp_encode_mant _ _ _ _ Hf) as (m' & Hm' & En & _ & _).
  destruct (mant_mod_cong f m Hm En) as [R C].
  assert (R1 : rel_prime 1 n) by (apply rel_prime_1).
  destruct (raw_encrypt_ok sk G (fp_enc f) (Some 1) fresh R R1) as (c & Hc & Ec).
  rewrite Hc. cbn [mbind res_bind]. eexists. split; [reflexivity|]. split; [|reflexivity].
  apply en_mant_encr. cbn [en_pk en_ct]. split; [reflexivity|].
  apply (obf_ok sk G); [exact Hr|]. eapply (encr_m sk G); eassumption.
Qed.

Lemma pk_encrypt_rv_ok v prec r fresh f m :
  fp_encode v (Some (n, pk_max_int n)) prec None = Ok f -> fp_mant f m -> r <> 0 -> Z.gcd r n = 1 ->
  exists x, pk_encrypt n v prec (Some r) fresh = Ok x /\ en_mant sk x m /\ en_exp x = fp_exp f.
Proof.
  intros Hf Hm Hr0 Hr%gcd_rel. unfold pk_encrypt. rewrite Hf. cbn [mbind res_bind].
  destruct (fp_encode_mant _ _ _ _ Hf) as (m' & Hm' & En & _ & _).
  destruct (mant_mod_cong f m Hm En) as [R C].
  rewrite (proj2 (Z.eqb_neq r 0) Hr0).
  destruct (raw_encrypt_ok sk G (fp_enc f) (Some r) fresh R) as (c & Hc & Ec).
  { now rewrite (proj2 (Z.eqb_neq r 0) Hr0). }
  rewrite Hc. cbn [mbind res_bind]. eexists. split; [reflexivity|]. split; [|reflexivity].
  apply en_mant_encr. cbn [en_pk en_ct]. split; [reflexivity|]. eapply (encr_m sk G); eassumption.
Qed.

Lemma en_obfuscate_ok x M fresh : en_mant sk x M -> Z.gcd fresh n = 1 -> en_mant sk (en_obfuscate x fresh) M.
Proof.
  intros [E H]%en_mant_encr Hr%gcd_rel. apply en_mant_encr. unfold en_obfuscate. cbn [en_pk en_ct].
  split; [exact E|]. rewrite E. now apply (obf_ok sk G).
Qed.

Lemma en_mul_ok x M s f m :
  en_mant sk x M -> fp_encode s (Some (n, pk_max_int n)) None None = Ok f -> fp_mant f m ->
  exists r, en_mul x s = Ok r /\ en_mant sk r (M * m) /\ en_exp r = en_exp x + fp_exp f.
Proof.
  intros [E H]%en_mant_encr Hf Hm. unfold en_mul. rewrite E, Hf. cbn [mbind res_bind].
  destruct (fp_encode_mant _ _ _ _ Hf) as (m' & Hm' & En & _ & _).
  destruct (mant_mod_cong f m Hm En) as [R C].
  rewrite (proj2 (Z.ltb_ge (fp_enc f) 0)) by lia. rewrite (proj2 (Z.leb_gt n (fp_enc f))) by lia. cbn [orb].
  destruct (n - pk_max_int n <=? fp_enc f).
  - destruct (encr_invert sk G _ _ H) as (d & Hd & Ed). unfold pk_nsquare. rewrite Hd. cbn [mbind res_bind].
    eexists. split; [reflexivity|]. split; [|reflexivity]. apply en_mant_encr. cbn [en_pk en_ct].
    split; [reflexivity|]. eapply (encr_m sk G); [|apply (encr_powmod sk G); [|exact Ed]; lia].
    destruct C as [k C]. exists (M * k - M). replace (fp_enc f) with (m + k * n) by lia. ring.
  - cbn [mbind res_bind]. eexists. split; [reflexivity|]. split; [|reflexivity].
    apply en_mant_encr. cbn [en_pk en_ct]. split; [reflexivity|]. unfold pk_nsquare.
    eapply (encr_m sk G); [|apply (encr_powmod sk G); [|exact H]; lia].
    destruct C as [k C]. exists (M * k). replace (fp_enc f) with (m + k * n) by lia. ring.
Qed.

Lemma encode_key_int z : Z.abs z <= pk_max_int n ->
  exists f, fp_encode (PyInt z) (Some (n, pk_max_int n)) None None = Ok f /\ fp_mant f z /\ fp_exp f = 0.
Proof.
  intros H. pose proof (max_int_bounds sk G).
  rewrite encode_int by lia. cbn [int_exp]. rewrite Z.pow_0_r, !Z.mul_1_r.
  rewrite (proj2 (Z.leb_le _ _)) by lia. eexists. split; [reflexivity|]. split; [|reflexivity].
  apply encode_mant; lia.
Qed.

Lemma en_increase_ok x M e : en_mant sk x M -> en_exp x <= e -> 16 ^ (e - en_exp x) <= pk_max_int n ->
  exists r, en_increase x e = Ok r /\ en_mant sk r (M * 16 ^ (e - en_exp x)) /\ en_exp r = e.
Proof.
  intros H He Hf. unfold en_increase. rewrite (proj2 (Z.ltb_ge e (en_exp x))) by lia.
  assert (Hp : 0 < 16 ^ (e - en_exp x)) by (apply Z.pow_pos_nonneg; lia).
  destruct (encode_key_int (16 ^ (e - en_exp x))) as (f & F1 & F2 & F3); [lia|].
  destruct (en_mul_ok x M _ f _ H F1 F2) as (r & Hr & Hm & _).
  rewrite Hr. cbn [mbind res_bind]. eexists. split; [reflexivity|]. split; [|reflexivity].
  destruct Hm as (A & B & C). now repeat split.
Qed.

Lemma raw_add_ok x y M M' e : en_mant sk x M -> en_mant sk y M' ->
  en_mant sk (en_raw_add n (en_ct x) (en_ct y) e) (M + M').
Proof.
  intros [_ H1]%en_mant_encr [_ H2]%en_mant_encr. apply en_mant_encr. split; [reflexivity|].
  cbn [en_ct en_raw_add]. unfold pk_nsquare. apply (encr_mod sk G). now apply (encr_mul sk).
Qed.

Lemma en_add_enc_ok x y M M' :
  en_mant sk x M -> en_mant sk y M' -> 16 ^ Z.abs (en_exp x - en_exp y) <= pk_max_int n ->
  let E := Z.max (en_exp x) (en_exp y) in
  exists r, en_add_enc x y = Ok r /\ en_exp r = E /\
    en_mant sk r (M * 16 ^ (E - en_exp x) + M' * 16 ^ (E - en_exp y)).
Proof.
  intros Hx Hy Hf E. pose proof (proj1 Hx) as Px. pose proof (proj1 Hy) as Py. unfold en_add_enc.
  rewrite Px, Py, Z.eqb_refl. cbn [negb].
  destruct (en_exp x <? en_exp y) eqn:E1.
  - destruct (en_increase_ok x M (en_exp y) Hx) as (x' & Hx' & Mx & Ex).
    { lia. } { now replace (en_exp y - en_exp x) with (Z.abs (en_exp x - en_exp y)) by lia. }
    rewrite Hx'. cbn [mbind res_bind]. eexists. split; [reflexivity|]. split; [cbn; lia|].
    assert (EE : E = en_exp y) by lia. rewrite EE, Z.sub_diag, Z.pow_0_r, Z.mul_1_r.
    now apply raw_add_ok.
  - destruct (en_exp y <? en_exp x) eqn:E2.
    + destruct (en_increase_ok y M' (en_exp x) Hy) as (y' & Hy' & My & Ey).
      { lia. } { now replace (en_exp x - en_exp y) with (Z.abs (en_exp x - en_exp y)) by lia. }
      rewrite Hy'. cbn [mbind res_bind]. eexists. split; [reflexivity|]. split; [cbn; lia|].
      assert (EE : E = en_exp x) by lia. rewrite EE, Z.sub_diag, Z.pow_0_r, Z.mul_1_r.
      now apply raw_add_ok.
    + cbn [mbind res_bind]. eexists. split; [reflexivity|]. split; [cbn; lia|].
      assert (EE : E = en_exp x) by lia. assert (EE2 : E = en_exp y) by lia.
      rewrite <- EE, <- EE2, Z.sub_diag, Z.pow_0_r, !Z.mul_1_r. now apply raw_add_ok.
Qed.

Lemma fp_increase_mant f m e : fp_n f = n -> cong n (fp_enc f) m -> fp_exp f <= e ->
  exists f', fp_increase f e = Ok f' /\ fp_n f' = n /\ fp_exp f' = e /\ 0 <= fp_enc f' < n /\
    cong n (fp_enc f') (m * 16 ^ (e - fp_exp f)).
Proof.
  intros En C He. unfold fp_increase. rewrite (proj2 (Z.ltb_ge e (fp_exp f))) by lia.
  pose proof (g_n6 sk G). eexists. split; [reflexivity|]. cbn [fp_n fp_exp fp_enc]. rewrite En.
  split; [reflexivity|]. split; [reflexivity|]. split; [apply Z.mod_pos_bound; lia|].
  eapply cong_trans; [apply cong_mod; lia|]. apply cong_mul; [exact C|apply cong_refl].
Qed.

Lemma raw_encrypt_1 m : 0 <= m < n -> exists c, pk_raw_encrypt n m (Some 1) 1 = Ok c /\ encr sk c m.
Proof. intros H. apply (raw_encrypt_ok sk G); [exact H|]. apply rel_prime_1. Qed.

Lemma en_add_fp_ok x M f m :
  en_mant sk x M -> fp_mant f m -> fp_n f = n ->
  (en_exp x < fp_exp f -> 16 ^ (fp_exp f - en_exp x) <= pk_max_int n) ->
  let E := Z.max (en_exp x) (fp_exp f) in
  exists r, en_add_fp x f = Ok r /\ en_exp r = E /\
    en_mant sk r (M * 16 ^ (E - en_exp x) + m * 16 ^ (E - fp_exp f)).
Proof.
  intros Hx Hf En Hfac E. pose proof (proj1 Hx) as Px. unfold en_add_fp.
  rewrite Px, En, Z.eqb_refl. cbn [negb].
  destruct (mant_mod_cong f m Hf En) as [R C].
  assert (K : forall x' M' c mm e, en_mant sk x' M' -> encr sk c mm -> cong n mm e ->
     forall ex, en_mant sk (en_raw_add n (en_ct x') c ex) (M' + e)).
  { intros x' M' c mm e [_ H1]%en_mant_encr H2 H3 ex. apply en_mant_encr. split; [reflexivity|].
    cbn [en_ct en_raw_add]. unfold pk_nsquare. apply (encr_mod sk G). apply (encr_mul sk); [exact H1|].
    eapply (encr_m sk G); eassumption. }
  destruct (en_exp x <? fp_exp f) eqn:E1.
  - destruct (en_increase_ok x M (fp_exp f) Hx) as (x' & Hx' & Mx & Ex); [lia|apply Hfac; lia|].
    rewrite Hx'. cbn [mbind res_bind]. rewrite (proj1 Mx).
    destruct (raw_encrypt_1 (fp_enc f) R) as (c & Hc & Ec). rewrite Hc. cbn [mbind res_bind].
    eexists. split; [reflexivity|]. split; [cbn; lia|].
    assert (EE : E = fp_exp f) by lia. rewrite EE, Z.sub_diag, Z.pow_0_r, Z.mul_1_r.
    eapply K; eassumption.
  - destruct (fp_exp f <? en_exp x) eqn:E2.
    + destruct (fp_increase_mant f m (en_exp x) En C) as (f' & Hf' & _ & _ & Rf & Cf); [lia|].
      rewrite Hf'. cbn [mbind res_bind]. rewrite Px.
      destruct (raw_encrypt_1 (fp_enc f') Rf) as (c & Hc & Ec). rewrite Hc. cbn [mbind res_bind].
      eexists. split; [reflexivity|]. split; [cbn; lia|].
      assert (EE : E = en_exp x) by lia. rewrite EE, Z.sub_diag, Z.pow_0_r, Z.mul_1_r.
      eapply K; eassumption.
    + cbn [mbind res_bind]. rewrite Px. destruct (raw_encrypt_1 (fp_enc f) R) as (c & Hc & Ec). rewrite Hc.
      cbn [mbind res_bind]. eexists. split; [reflexivity|]. split; [cbn; lia|].
      assert (EE : E = en_exp x) by lia. assert (EE2 : E = fp_exp f) by lia.
      rewrite <- EE, <- EE2, Z.sub_diag, Z.pow_0_r, !Z.mul_1_r. eapply K; eassumption.
Qed.

Lemma en_add_scalar_ok x M s f m :
  en_mant sk x M -> fp_encode s (Some (n, pk_max_int n)) None (Some (en_exp x)) = Ok f -> fp_mant f m ->
  16 ^ (fp_exp f - en_exp x) <= pk_max_int n ->
  exists r, en_add_scalar x s = Ok r /\ en_exp r = fp_exp f /\
    en_mant sk r (M * 16 ^ (fp_exp f - en_exp x) + m).
Proof.
  intros Hx Hf Hm Hfac. destruct (fp_encode_mant _ _ _ _ Hf) as (m' & _ & En & _ & He).
  destruct (en_add_fp_ok x M f m Hx Hm En) as (r & Hr & Er & Mr); [intros; assumption|].
  rewrite Z.max_r in Er, Mr by lia. rewrite Z.sub_diag, Z.pow_0_r, Z.mul_1_r in Mr.
  exists r. split; [|split; assumption]. unfold en_add_scalar. rewrite (proj1 Hx), Hf. exact Hr.
Qed.

(** ** Values *)
Lemma en_value_intro x M q : Z.abs M <= pk_max_int n -> en_mant sk x M ->
  q = (zq M * p2 (- (4 * en_exp x)))%Qc -> en_value sk x q.
Proof. intros. exists M. auto. Qed.

Lemma scale_bound M e B : (qabs (zq M * p2 (- (4 * e))) * p2 (4 * e) <= zq B)%Qc -> Z.abs M <= B.
Proof.
  rewrite qabs_mul, qabs_zq, qabs_p2, <- Qcmult_assoc, p2_sub_add.
  replace (- (4 * e) + 4 * e) with 0 by lia. rewrite p2_0, Qcmult_1_r. now rewrite zq_le.
Qed.

Lemma en_add_value x y a b :
  en_value sk x a -> en_value sk y b -> 16 ^ Z.abs (en_exp x - en_exp y) <= pk_max_int n ->
  (qabs (a + b) * p2 (4 * Z.max (en_exp x) (en_exp y)) <= zq (pk_max_int n))%Qc ->
  exists r, en_add_enc x y = Ok r /\ en_exp r = Z.max (en_exp x) (en_exp y) /\ en_value sk r (a + b)%Qc.
Proof.
  intros (M & HM & Hx & Ea) (M' & HM' & Hy & Eb) Hf Hb.
  destruct (en_add_enc_ok x y M M' Hx Hy Hf) as (r & Hr & Er & Mr). cbv zeta in Er, Mr.
  exists r. split; [exact Hr|]. split; [exact Er|].
  set (E := Z.max (en_exp x) (en_exp y)) in *.
  assert (EV : (a + b)%Qc = (zq (M * 16 ^ (E - en_exp x) + M' * 16 ^ (E - en_exp y)) * p2 (- (4 * E)))%Qc).
  { rewrite Ea, Eb, (zq_scale M _ E), (zq_scale M' _ E), zq_add by lia. ring. }
  eapply en_value_intro; [|exact Mr|now rewrite Er].
  rewrite EV in Hb. now apply scale_bound in Hb.
Qed.

Lemma en_mul_value x a s f w :
  en_value sk x a -> fp_encode s (Some (n, pk_max_int n)) None None = Ok f -> fp_holds f w ->
  (qabs (a * w) * p2 (4 * (en_exp x + fp_exp f)) <= zq (pk_max_int n))%Qc ->
  exists r, en_mul x s = Ok r /\ en_exp r = en_exp x + fp_exp f /\ en_value sk r (a * w)%Qc.
Proof.
  intros (M & HM & Hx & Ea) Hf (m & Hm & Ew) Hb.
  destruct (en_mul_ok x M s f m Hx Hf Hm) as (r & Hr & Mr & Er).
  exists r. split; [exact Hr|]. split; [exact Er|].
  assert (EV : (a * w)%Qc = (zq (M * m) * p2 (- (4 * (en_exp x + fp_exp f))))%Qc).
  { rewrite Ea, Ew, zq_mul. replace (- (4 * (en_exp x + fp_exp f))) with (- (4 * en_exp x) + - (4 * fp_exp f)) by lia.
    rewrite p2_add. ring. }
  eapply en_value_intro; [|exact Mr|now rewrite Er]. rewrite EV in Hb. now apply scale_bound in Hb.
Qed.

Lemma en_add_scalar_value x a s f w :
  en_value sk x a -> fp_encode s (Some (n, pk_max_int n)) None (Some (en_exp x)) = Ok f -> fp_holds f w ->
  16 ^ (fp_exp f - en_exp x) <= pk_max_int n ->
  (qabs (a + w) * p2 (4 * fp_exp f) <= zq (pk_max_int n))%Qc ->
  exists r, en_add_scalar x s = Ok r /\ en_exp r = fp_exp f /\ en_value sk r (a + w)%Qc.
Proof.
  intros (M & HM & Hx & Ea) Hf (m & Hm & Ew) Hfac Hb.
  destruct (en_add_scalar_ok x M s f m Hx Hf Hm Hfac) as (r & Hr & Er & Mr).
  destruct (fp_encode_mant _ _ _ _ Hf) as (m' & _ & _ & _ & He).
  exists r. split; [exact Hr|]. split; [exact Er|].
  assert (EV : (a + w)%Qc = (zq (M * 16 ^ (fp_exp f - en_exp x) + m) * p2 (- (4 * fp_exp f)))%Qc).
  { rewrite Ea, Ew, (zq_scale M _ (fp_exp f)), zq_add by lia. ring. }
  eapply en_value_intro; [|exact Mr|now rewrite Er]. rewrite EV in Hb. now apply scale_bound in Hb.
Qed.

Lemma en_neg_value x a : en_value sk x a ->
  exists r, en_mul x (PyInt (-1)) = Ok r /\ en_exp r = en_exp x /\ en_value sk r (- a)%Qc.
Proof.
  intros (M & HM & Hx & Ea). pose proof (max_int_bounds sk G) as [_ Hb]. pose proof (g_n6 sk G) as H6.
  destruct (encode_key_int (-1)) as (f & F1 & F2 & F3); [lia|].
  destruct (en_mul_ok x M _ f _ Hx F1 F2) as (r & Hr & Mr & Er).
  exists r. split; [exact Hr|]. rewrite F3, Z.add_0_r in Er. split; [exact Er|].
  exists (M * -1). split; [lia|]. split; [exact Mr|]. rewrite Er, Ea, zq_mul.
  change (zq (-1)) with (- zq 1)%Qc. rewrite zq_1. ring.
Qed.

Lemma en_sub_value x y a b :
  en_value sk x a -> en_value sk y b -> 16 ^ Z.abs (en_exp x - en_exp y) <= pk_max_int n ->
  (qabs (a - b) * p2 (4 * Z.max (en_exp x) (en_exp y)) <= zq (pk_max_int n))%Qc ->
  exists r, cell_sub (CEnc x) (CEnc y) = Ok (CEnc r) /\ en_exp r = Z.max (en_exp x) (en_exp y)
            /\ en_value sk r (a - b)%Qc.
Proof.
  intros Hx Hy Hf Hb. destruct (en_neg_value y b Hy) as (y' & Hy' & Ey & Vy).
  destruct (en_add_value x y' a (- b)%Qc Hx Vy) as (r & Hr & Er & Vr).
  { now rewrite Ey. } { now rewrite Ey. }
  exists r. unfold cell_sub, cell_neg. rewrite Hy'. cbn [mbind res_bind cell_add]. rewrite Hr. cbn [mbind res_bind].
  rewrite Er, Ey. auto.
Qed.

Lemma en_rsub_value x a s f w :
  en_value sk x a -> fp_encode s (Some (n, pk_max_int n)) None (Some (en_exp x)) = Ok f -> fp_holds f w ->
  16 ^ (fp_exp f - en_exp x) <= pk_max_int n ->
  (qabs (w - a) * p2 (4 * fp_exp f) <= zq (pk_max_int n))%Qc ->
  exists r, cell_sub (CNum s) (CEnc x) = Ok (CEnc r) /\ en_exp r = fp_exp f /\ en_value sk r (w - a)%Qc.
Proof.
  intros Hx Hf Hw Hfac Hb. destruct (en_neg_value x a Hx) as (x' & Hx' & Ex & Vx).
  destruct (en_add_scalar_value x' (- a)%Qc s f w Vx) as (r & Hr & Er & Vr).
  { now rewrite Ex. } { exact Hw. } { now rewrite Ex. }
  { replace (- a + w)%Qc with (w - a)%Qc by ring. exact Hb. }
  exists r. unfold cell_sub, cell_neg. rewrite Hx'. cbn [mbind res_bind cell_add]. rewrite Hr. cbn [mbind res_bind].
  split; [reflexivity|]. split; [exact Er|]. now replace (w - a)%Qc with (- a + w)%Qc by ring.
Qed.

(** ** Decryption *)
Lemma dec_mant x M : en_mant sk x M -> Z.abs M <= pk_max_int n ->
  sk_decrypt sk (CEnc x) = decode_mant M (en_exp x).
Proof.
  intros (A & B & C) HM. unfold sk_decrypt. rewrite A, Z.eqb_refl. cbn [negb].
  pose proof (max_int_bounds sk G). rewrite C.
  rewrite (fp_decode_mant _ M); [reflexivity|]. apply encode_mant; lia.
Qed.

Lemma dec_overflow x M : en_mant sk x M -> pk_max_int n < Z.abs M <= 2 * pk_max_int n ->
  sk_decrypt sk (CEnc x) = Err OverflowError.
Proof.
  intros (A & B & C) HM. unfold sk_decrypt. rewrite A, Z.eqb_refl. cbn [negb].
  pose proof (max_int_bounds sk G). rewrite C. unfold fp_decode. cbn [fp_n fp_enc fp_max fp_exp].
  assert (E : 0 <= M /\ M mod n = M \/ M < 0 /\ M mod n = M + n).
  { destruct (Z_lt_le_dec M 0); [right|left]; (split; [lia|]).
    - symmetry. apply (Z.mod_unique _ _ (-1)); lia.
    - apply Z.mod_small; lia. }
  rewrite (proj2 (Z.leb_gt n _)) by (apply Z.mod_pos_bound; lia).
  rewrite (proj2 (Z.leb_gt (M mod n) (pk_max_int n))) by lia.
  rewrite (proj2 (Z.leb_gt (n - pk_max_int n) (M mod n))) by lia. reflexivity.
Qed.

Lemma two_term_sum x y a b :
  en_value sk x a -> en_value sk y b -> en_exp x = en_exp y ->
  exists r, en_add_enc x y = Ok r /\ en_exp r = en_exp x /\
    (((qabs (a + b) * p2 (4 * en_exp x) <= zq (pk_max_int n))%Qc /\ en_value sk r (a + b)%Qc) \/
     ((zq (pk_max_int n) < qabs (a + b) * p2 (4 * en_exp x))%Qc /\ sk_decrypt sk (CEnc r) = Err OverflowError)).
Proof.
  intros (M & HM & Hx & Ea) (M' & HM' & Hy & Eb) Hee.
  pose proof (max_int_bounds sk G). pose proof (g_n6 sk G).
  destruct (en_add_enc_ok x y M M' Hx Hy) as (r & Hr & Er & Mr).
  { rewrite Hee, Z.sub_diag. change (16 ^ Z.abs 0) with 1. lia. }
  cbv zeta in Er, Mr. rewrite <- Hee, Z.max_id in Er, Mr. rewrite Z.sub_diag, Z.pow_0_r, !Z.mul_1_r in Mr.
  exists r. split; [exact Hr|]. split; [exact Er|].
  assert (EV : (a + b)%Qc = (zq (M + M') * p2 (- (4 * en_exp x)))%Qc).
  { rewrite Ea, Eb, <- Hee, zq_add. ring. }
  assert (EB : (qabs (a + b) * p2 (4 * en_exp x))%Qc = zq (Z.abs (M + M'))).
  { rewrite EV, qabs_mul, qabs_zq, qabs_p2, <- Qcmult_assoc, p2_sub_add.
    replace (- (4 * en_exp x) + 4 * en_exp x) with 0 by lia. rewrite p2_0. ring. }
  rewrite EB. destruct (Z_le_gt_dec (Z.abs (M + M')) (pk_max_int n)) as [L|L].
  - left. split; [now apply zq_le|]. exists (M + M'). rewrite Er. auto.
  - right. split; [apply zq_lt; lia|]. eapply dec_overflow; [exact Mr|lia].
Qed.
End sk.

Lemma frexp_unique q e : (p2 (e - 1) <= qabs q)%Qc -> (qabs q < p2 e)%Qc -> frexp_e q = e.
Proof.
  intros H1 H2. assert (Hq : q <> zq 0).
  { intros ->. pose proof (p2_pos (e - 1)) as P. rewrite qabs_zq in H1. change (zq (Z.abs 0)) with (0%Qc) in H1. qlra. }
  destruct (frexp_spec q Hq) as [H3 H4].
  assert (A : (p2 (e - 1) < p2 (frexp_e q))%Qc) by qlra. apply p2_lt_inv in A.
  assert (B : (p2 (frexp_e q - 1) < p2 e)%Qc) by qlra. apply p2_lt_inv in B. lia.
Qed.

Lemma frexp_scale q t : q <> zq 0 -> frexp_e (q * p2 t)%Qc = frexp_e q + t.
Proof.
  intros Hq. destruct (frexp_spec q Hq) as [H3 H4]. pose proof (p2_pos t) as Hp.
  apply frexp_unique; rewrite qabs_mul, qabs_p2.
  - replace (frexp_e q + t - 1) with ((frexp_e q - 1) + t) by lia. rewrite p2_add. qnra.
  - rewrite p2_add. qnra.
Qed.

Lemma fround_scale q t : fround (q * p2 t)%Qc = (fround q * p2 t)%Qc.
Proof.
  destruct (Qc_eq_dec q (zq 0)) as [->|Hq].
  - replace (zq 0 * p2 t)%Qc with (zq 0) by (rewrite zq_0; ring). rewrite fround_0, zq_0. ring.
  - unfold fround. rewrite (frexp_scale q t Hq). rewrite <- !Qcmult_assoc, !p2_sub_add.
    replace (t + (53 - (frexp_e q + t))) with (53 - frexp_e q) by lia.
    replace (- (53 - frexp_e q) + t) with (- (53 - (frexp_e q + t))) by lia. reflexivity.
Qed.

Lemma decode_value m e q : q = (zq m * p2 (- (4 * e)))%Qc ->
  (e <= 0 -> exists z, decode_mant m e = Ok (PyInt z) /\ zq z = q) /\
  (0 < e -> decode_mant m e = if float_limit <=? Z.abs m then Err OverflowError else Ok (PyFloat (fround q))).
Proof.
  intros ->. split; intros H.
  - rewrite decode_mant_int by lia. eexists. split; [reflexivity|].
    rewrite zq_mul, <- p2_16 by lia. do 2 f_equal. lia.
  - unfold decode_mant. rewrite (proj2 (Z.leb_gt _ _)) by lia. unfold int_to_float.
    destruct (float_limit <=? Z.abs m); [reflexivity|]. cbn [mbind res_bind]. now rewrite fround_scale.
Qed.

Lemma decrypt_value sk x q : good_sk sk -> en_value sk x q ->
  (en_exp x <= 0 -> exists z, sk_decrypt sk (CEnc x) = Ok (PyInt z) /\ zq z = q) /\
  (0 < en_exp x -> sk_decrypt sk (CEnc x) =
     if qleb (zq float_limit) (qabs q * p2 (4 * en_exp x)) then Err OverflowError else Ok (PyFloat (fround q))).
Proof.
  intros G (M & HM & Hx & Eq). rewrite (dec_mant sk G x M Hx HM).
  destruct (decode_value M (en_exp x) q Eq) as [D1 D2]. split; [exact D1|].
  intros He. rewrite (D2 He).
  assert (EB : (qabs q * p2 (4 * en_exp x))%Qc = zq (Z.abs M)).
  { rewrite Eq, qabs_mul, qabs_zq, qabs_p2, <- Qcmult_assoc, p2_sub_add.
    replace (- (4 * en_exp x) + 4 * en_exp x) with 0 by lia. rewrite p2_0. ring. }
  rewrite EB. destruct (float_limit <=? Z.abs M) eqn:E; destruct (qleb _ _) eqn:E2; try reflexivity; exfalso.
  - apply qleb_false in E2. rewrite zq_lt in E2. lia.
  - apply qleb_true in E2. rewrite zq_le in E2. lia.
Qed.

(** ** Expression trees over gradients *)
Lemma leaf_encode n mx v : 2 ^ 53 <= mx -> 2 * mx < n -> (qabs v <= zq 1)%Qc ->
  exists f m, fp_encode (PyFloat v) (Some (n, mx)) None None = Ok f /\ fp_mant f m /\
    0 <= fp_exp f <= 179 /\ Z.abs m <= 16 ^ fp_exp f /\ Z.abs m <= 2 ^ 53 /\
    exists w, fp_decode f = Ok w /\ num w = (zq m * p2 (- (4 * fp_exp f)))%Qc.
Proof.
  intros H1 H2 Hv. unfold fp_encode. cbn [num].
  destruct (qltb (qabs v) tiny) eqn:Et.
  - cbv zeta iota. assert (S : scaled_round (PyInt 0) 0 = Ok 0) by reflexivity. rewrite S. cbn [mbind res_bind Z.abs].
    rewrite (proj2 (Z.ltb_ge _ _)) by lia. exists (FP (0 mod n) 0 n mx), 0.
    split; [reflexivity|]. assert (FM : fp_mant (FP (0 mod n) 0 n mx) 0) by (apply encode_mant; lia).
    split; [exact FM|]. cbn [fp_exp]. split; [lia|]. split; [cbn; lia|]. split; [lia|].
    rewrite (fp_decode_mant _ 0 FM). eexists. split; [reflexivity|]. reflexivity.
  - apply qltb_false in Et. pose proof (tiny_frexp v Et) as Hfe.
    destruct (frexp_spec v (tiny_big v Et)) as [Hf1 Hf2].
    assert (Hup : frexp_e v <= 1).
    { assert (A : (p2 (frexp_e v - 1) < p2 1)%Qc).
      { eapply Qcle_lt_trans; [exact Hf1|]. eapply Qcle_lt_trans; [exact Hv|]. reflexivity. }
      apply p2_lt_inv in A. lia. }
    set (e := (53 - frexp_e v) / 4). assert (He : 0 <= e <= 179) by (subst e; pose proof (Z.div_lt_upper_bound (53 - frexp_e v) 4 180); pose proof (Z.div_pos (53 - frexp_e v) 4); lia).
    cbv zeta iota. cbn [num]. fold e.
    assert (Hsm : (qabs (v * p2 (4 * e)) <= p2 53)%Qc).
    { rewrite qabs_mul, qabs_p2. assert (Hle : (p2 (frexp_e v + 4 * e) <= p2 53)%Qc).
      { apply p2_le. pose proof (Z.mul_div_le (53 - frexp_e v) 4). fold e in H. lia. }
      rewrite p2_add in Hle. pose proof (p2_pos (4 * e)). qnra. }
    assert (Hs16 : (qabs (v * p2 (4 * e)) <= zq (16 ^ e))%Qc).
    { rewrite qabs_mul, qabs_p2, <- p2_16 by lia. pose proof (p2_pos (4 * e)). rewrite zq_1 in Hv. qnra. }
    assert (Hi1 : Z.abs (round_he (v * p2 (4 * e))) <= 2 ^ 53).
    { apply round_he_bound. now rewrite <- p2_nonneg by lia. }
    assert (Hi2 : Z.abs (round_he (v * p2 (4 * e))) <= 16 ^ e) by now apply round_he_bound.
    assert (SR : scaled_round (PyFloat v) e = Ok (round_he (v * p2 (4 * e)))).
    { unfold scaled_round. rewrite (proj2 (Z.leb_gt 256 e)) by lia.
      assert (L : qleb (p2 1024) (qabs (v * p2 (4 * e))) = false).
      { apply qleb_false. eapply Qcle_lt_trans; [exact Hsm|]. apply p2_lt. lia. }
      cbv zeta. now rewrite L. }
    rewrite SR. cbn [mbind res_bind]. set (i := round_he (v * p2 (4 * e))) in *.
    rewrite (proj2 (Z.ltb_ge _ _)) by lia. exists (FP (i mod n) e n mx), i.
    split; [reflexivity|]. assert (FM : fp_mant (FP (i mod n) e n mx) i) by (apply encode_mant; lia).
    split; [exact FM|]. cbn [fp_exp]. split; [exact He|]. split; [exact Hi2|]. split; [exact Hi1|].
    rewrite (fp_decode_mant _ i FM). cbn [fp_exp].
    destruct (decode_mant_small i e Hi1) as (w & Hw & Ew & _). exists w. auto.
Qed.

(** The invariant carried along an expression: mantissa at most L * 16^exponent. *)
Definition cell_inv (sk : privkey) (c : cell) (L : Z) (q : Qc) : Prop :=
  match c with
  | CNum v => v = PyInt 0 /\ q = zq 0 /\ L = 0
  | CEnc x => 0 <= en_exp x <= 179 /\ 1 <= L /\
      exists M, en_mant sk x M /\ Z.abs M <= L * 16 ^ en_exp x /\ q = (zq M * p2 (- (4 * en_exp x)))%Qc
  end.

Section trees.
Variable sk : privkey.
Hypothesis G : good_sk sk.
Local Notation n := (sk_n sk).
Hypothesis Hbig : 2 ^ 1000 <= n.

Lemma max_big : 2 ^ 990 <= pk_max_int n.
Proof.
  pose proof (max_int_bounds sk G) as [_ H].
  assert (2 ^ 1000 = 1024 * 2 ^ 990) by reflexivity. assert (0 < 2 ^ 990) by reflexivity. lia.
Qed.

Lemma p16_179 k : k <= 179 -> 16 ^ k <= 2 ^ 716.
Proof. intros H. change (2 ^ 716) with (16 ^ 179). apply Z.pow_le_mono_r; lia. Qed.

Lemma align_fits k : k <= 179 -> 16 ^ k <= pk_max_int n.
Proof.
  intros H. pose proof max_big. pose proof (p16_179 k H). assert (2 ^ 716 <= 2 ^ 990) by (vm_compute; discriminate). lia.
Qed.

Lemma scale_mant M L e E : 0 <= e <= E -> Z.abs M <= L * 16 ^ e -> Z.abs (M * 16 ^ (E - e)) <= L * 16 ^ E.
Proof.
  intros He HM. rewrite Z.abs_mul. assert (0 < 16 ^ (E - e)) by (apply Z.pow_pos_nonneg; lia).
  rewrite (Z.abs_eq (16 ^ (E - e))) by lia. replace E with (e + (E - e)) at 2 by lia. rewrite Z.pow_add_r by lia. nia.
Qed.

Lemma add_inv x y L L' a b : cell_inv sk x L a -> cell_inv sk y L' b ->
  exists r, cell_add x y = Ok r /\ cell_inv sk r (L + L') (a + b)%Qc.
Proof.
  assert (Z0 : forall x L a, cell_inv sk (CEnc x) L a ->
     exists r, en_add_scalar x (PyInt 0) = Ok r /\ cell_inv sk (CEnc r) L a).
  { clear x y L L' a b. intros x M a (He & HL & M' & Hx & HM & Ea).
    pose proof (max_int_bounds sk G). pose proof max_big.
    assert (EN0 : fp_encode (PyInt 0) (Some (n, pk_max_int n)) None (Some (en_exp x)) =
                 Ok (FP (0 mod n) (en_exp x) n (pk_max_int n))).
    { rewrite encode_int by lia. cbn [int_exp]. rewrite Z.max_l by lia. cbn [Z.mul Z.abs]. 
      rewrite (proj2 (Z.leb_le _ _)) by lia. reflexivity. }
    destruct (en_add_scalar_ok sk G x M' (PyInt 0) _ 0 Hx EN0) as (r & Hr & Er & Mr).
    { apply encode_mant; lia. } { cbn [fp_exp]. apply align_fits. lia. }
    cbn [fp_exp] in Er, Mr. rewrite Z.sub_diag, Z.pow_0_r, Z.mul_1_r, Z.add_0_r in Mr.
    exists r. split; [exact Hr|]. cbn [cell_inv]. rewrite Er. split; [exact He|]. split; [exact HL|]. exists M'. auto. }
  intros Hx Hy. destruct x as [v|x], y as [w|y]; cbn [cell_add].
  - destruct Hx as (-> & -> & ->), Hy as (-> & -> & ->). eexists. split; [reflexivity|].
    cbn. repeat split.
  - destruct Hx as (-> & -> & ->). destruct (Z0 y L' b Hy) as (r & -> & Hr). cbn [mbind res_bind].
    eexists. split; [reflexivity|]. replace (zq 0 + b)%Qc with b by (rewrite zq_0; ring). exact Hr.
  - destruct Hy as (-> & -> & ->). destruct (Z0 x L a Hx) as (r & -> & Hr). cbn [mbind res_bind].
    eexists. split; [reflexivity|]. replace (a + zq 0)%Qc with a by (rewrite zq_0; ring). now rewrite Z.add_0_r.
  - destruct Hx as (He & HL & M & Hx & HM & Ea), Hy as (He' & HL' & M' & Hy & HM' & Eb).
    destruct (en_add_enc_ok sk G x y M M' Hx Hy) as (r & Hr & Er & Mr); [apply align_fits; lia|].
    rewrite Hr. cbn [mbind res_bind]. eexists. split; [reflexivity|]. cbv zeta in Er, Mr.
    set (E := Z.max (en_exp x) (en_exp y)) in *. cbn [cell_inv]. rewrite Er. split; [lia|]. split; [lia|].
    exists (M * 16 ^ (E - en_exp x) + M' * 16 ^ (E - en_exp y)). split; [exact Mr|]. split.
    + pose proof (scale_mant M L (en_exp x) E). pose proof (scale_mant M' L' (en_exp y) E). lia.
    + rewrite Ea, Eb, (zq_scale M _ E), (zq_scale M' _ E), zq_add by lia. ring.
Qed.

Lemma neg_inv x L a : cell_inv sk x L a -> exists r, cell_neg x = Ok r /\ cell_inv sk r L (- a)%Qc.
Proof.
  destruct x as [v|x]; cbn [cell_neg].
  - intros (-> & -> & ->). eexists. split; [reflexivity|]. cbn. repeat split.
  - intros (He & HL & M & Hx & HM & Ea). pose proof max_big. pose proof (max_int_bounds sk G).
    destruct (encode_key_int sk G (-1)) as (f & F1 & F2 & F3); [lia|].
    destruct (en_mul_ok sk G x M _ f _ Hx F1 F2) as (r & Hr & Mr & Er).
    rewrite Hr. cbn [mbind res_bind]. eexists. split; [reflexivity|]. cbn [cell_inv]. rewrite Er, F3, Z.add_0_r.
    split; [exact He|]. split; [exact HL|]. exists (M * -1). split; [exact Mr|]. split; [lia|].
    rewrite Ea, zq_mul. change (zq (-1)) with (- zq 1)%Qc. rewrite zq_1. ring.
Qed.

Lemma geval_inv e : gleaves_ok n e ->
  exists c, geval n e = Ok c /\ cell_inv sk c (gleaves e) (gsum n e).
Proof.
  pose proof max_big as HB. pose proof (max_int_bounds sk G) as HM.
  induction e as [|v r|a IHa b IHb|a IHa b IHb]; cbn [geval gleaves gsum gleaves_ok].
  - intros _. eexists. split; [reflexivity|]. cbn. auto.
  - intros [Hv Hr]. assert (2 ^ 53 <= 2 ^ 990) by (vm_compute; discriminate).
    destruct (leaf_encode n (pk_max_int n) v) as (f & m & Hf & Hm & He & B1 & B2 & w & Hw & Ew); [lia|lia|exact Hv|].
    destruct (pk_encrypt_ok sk G (PyFloat v) None r f m Hf Hm Hr) as (x & Hx & Mx & Ex).
    rewrite Hx. cbn [mbind res_bind]. eexists. split; [reflexivity|]. cbn [cell_inv]. rewrite Ex.
    split; [exact He|]. split; [lia|]. exists m. split; [exact Mx|]. split; [lia|].
    unfold leaf_value. rewrite Hf, Hw. exact Ew.
  - intros [Ha Hb]. destruct (IHa Ha) as (x & -> & Ix), (IHb Hb) as (y & -> & Iy). cbn [mbind res_bind].
    exact (add_inv x y _ _ _ _ Ix Iy).
  - intros [Ha Hb]. destruct (IHa Ha) as (x & -> & Ix), (IHb Hb) as (y & -> & Iy). cbn [mbind res_bind].
    unfold cell_sub. destruct (neg_inv y _ _ Iy) as (y' & -> & Iy'). cbn [mbind res_bind].
    exact (add_inv x y' _ _ _ _ Ix Iy').
Qed.

Lemma tree_sum e : gleaves_ok n e -> 1 <= gleaves e <= 2 ^ 200 ->
  exists x, geval n e = Ok (CEnc x) /\ en_value sk x (gsum n e) /\
    exists v, sk_decrypt sk (CEnc x) = Ok v /\
      (en_exp x <= 0 -> num v = gsum n e) /\ (0 < en_exp x -> num v = fround (gsum n e)).
Proof.
  intros He HL. destruct (geval_inv e He) as (c & Hc & Ic). destruct c as [v|x]; [cbn in Ic; lia|].
  destruct Ic as (Hex & _ & M & Hx & HM & Eq). exists x. split; [exact Hc|].
  pose proof max_big as HB. pose proof (p16_179 (en_exp x)).
  assert (HMs : Z.abs M <= 2 ^ 916).
  { replace (2 ^ 916) with (2 ^ 200 * 2 ^ 716) by reflexivity.
    assert (0 < 16 ^ en_exp x) by (apply Z.pow_pos_nonneg; lia). nia. }
  assert (2 ^ 916 <= 2 ^ 990) by (vm_compute; discriminate).
  assert (V : en_value sk x (gsum n e)) by (exists M; split; [lia|auto]).
  split; [exact V|]. destruct (decrypt_value sk x _ G V) as [D1 D2].
  destruct (Z_le_gt_dec (en_exp x) 0) as [Hz|Hz].
  - destruct (D1 Hz) as (z & Hz1 & Hz2). exists (PyInt z). split; [exact Hz1|]. split; [intros; exact Hz2|lia].
  - rewrite D2 by lia.
    assert (L : qleb (zq float_limit) (qabs (gsum n e) * p2 (4 * en_exp x)) = false).
    { apply qleb_false. rewrite Eq, qabs_mul, qabs_zq, qabs_p2, <- Qcmult_assoc, p2_sub_add.
      replace (- (4 * en_exp x) + 4 * en_exp x) with 0 by lia. rewrite p2_0, Qcmult_1_r. apply zq_lt.
      assert (2 ^ 916 < float_limit) by reflexivity. lia. }
    rewrite L. eexists. split; [reflexivity|]. split; [lia|]. reflexivity.
Qed.
End trees.

(** A computable primality test for small examples. *)
Definition prime_check (p : Z) : bool :=
  (1 <? p) && forallb (fun k => negb (p mod Z.of_nat k =? 0)) (seq 2 (Z.to_nat p - 2)).
Lemma prime_check_ok p : prime_check p = true -> prime p.
Proof.
  unfold prime_check. intros [H1 H2]%andb_prop. rewrite forallb_forall in H2.
  apply prime_alt. split; [lia|]. intros k Hk D.
  specialize (H2 (Z.to_nat k)). rewrite in_seq, Z2Nat.id in H2 by lia.
  assert (p mod k = 0) by (apply Z.mod_divide; [lia|exact D]). rewrite H in H2.
  specialize (H2 ltac:(lia)). discriminate.
Qed.
