(** Adding a plaintext to a ciphertext hides nothing from whoever holds both ciphertexts. *)
From Verif Require Export LeakSpec.
From Verif Require Import PyBase QcBase FixedPointModel FixedPointSpec FixedPointProofs FloatProofs PaillierModel PaillierSpec PaillierProofs EncNumProofs EncryptModePaillier.
From Coq Require Import Lia ZifyBool Znumtheory Zpow_facts.
Local Open Scope Z_scope.

Section sk.
Variable sk : privkey.
Hypothesis G : good_sk sk.
Local Notation n := (sk_n sk).

(** Encryption of a plaintext with the random number 1. *)
Lemma plain_cong m c : 0 <= m < n -> pk_raw_encrypt n m (Some 1) 1 = Ok c -> cong (n * n) c (1 + n * m).
Proof.
  intros Hm H. pose proof (g_n6 sk G) as N6. assert (NN : 1 < n * n) by nia.
  assert (OB : forall x, cong (n * n) (pk_apply_obfuscator n x (Some 1) 1) x).
  { intros x. unfold pk_apply_obfuscator, pk_nsquare. cbn [Z.eqb]. unfold powmod. change (1 =? 1) with true. cbv iota.
    eapply cong_trans; [apply cong_mod; lia|]. apply cong_eq. ring. }
  unfold pk_raw_encrypt in H. destruct ((n - pk_max_int n <=? m) && (m <? n)) eqn:E.
  - destruct (invert ((n * (n - m) + 1) mod pk_nsquare n) (pk_nsquare n)) as [d|] eqn:Ed; [|discriminate]. cbn [mbind res_bind] in H. injection H as <-.
    eapply cong_trans; [apply OB|]. unfold pk_nsquare in Ed. destruct (invert_inv _ _ _ NN Ed) as (_ & C & RP).
    apply (cong_cancel (n * n) ((n * (n - m) + 1) mod (n * n))); [exact RP|]. eapply cong_trans; [exact C|]. apply cong_sym.
    eapply cong_trans; [apply cong_mul; [apply cong_mod; lia|apply cong_refl]|]. exists ((n - m) * m + 1). ring.
  - cbn [mbind res_bind] in H. injection H as <-. eapply cong_trans; [apply OB|]. unfold pk_nsquare. eapply cong_trans; [apply cong_mod; lia|]. apply cong_eq. ring.
Qed.

Lemma powmod_1 a c : 1 < c -> cong c (powmod a 1 c) a.
Proof. intros H. eapply cong_trans; [apply powmod_cong; lia|]. apply cong_eq. ring. Qed.

Lemma increase_ct x e r : en_pk x = n -> en_exp x <= e -> 16 ^ (e - en_exp x) <= pk_max_int n -> en_increase x e = Ok r ->
  en_pk r = n /\ en_ct r = powmod (en_ct x) (16 ^ (e - en_exp x)) (n * n).
Proof.
  intros Hp He Hk H. pose proof (max_int_bounds sk G) as MI. unfold en_increase in H. rewrite (proj2 (Z.ltb_ge e (en_exp x))) in H by lia.
  assert (P16 : 0 < 16 ^ (e - en_exp x)) by (apply Z.pow_pos_nonneg; lia).
  destruct (encode_key_int sk G (16 ^ (e - en_exp x))) as (f & F1 & F2 & F3); [lia|].
  unfold en_mul in H. rewrite Hp, F1 in H. cbn [mbind res_bind] in H.
  destruct (fp_encode_mant sk G _ _ _ _ F1) as (_ & _ & En & _ & _). destruct F2 as (_ & _ & _ & F2). rewrite En, Z.mod_small in F2 by lia. rewrite F2 in H.
  rewrite (proj2 (Z.ltb_ge _ 0)) in H by lia. rewrite (proj2 (Z.leb_gt n _)) in H by lia. rewrite (proj2 (Z.leb_gt (n - pk_max_int n) _)) in H by lia.
  cbn [orb mbind res_bind] in H. injection H as <-. cbn [en_pk en_ct]. unfold pk_nsquare. auto.
Qed.

Hypothesis Hbig : 2 ^ 1000 <= n.

Lemma read_diff_ok c c' d : en_pk c = n -> Z.gcd (en_ct c) n = 1 -> 0 <= en_exp c <= 179 -> (qabs d <= zq (2 ^ 32))%Qc -> pe_add_float d c = Ok c' ->
  exists w, read_diff c c' = Ok w /\ (qabs (w - d) <= p2 (-50) * qabs d + tiny)%Qc.
Proof.
  intros Hpk Hg He Hd H. pose proof (g_n6 sk G) as N6. assert (NN : 1 < n * n) by nia. pose proof (max_int_bounds sk G) as MI. pose proof (max_big sk G Hbig) as MB.
  destruct (encode_float_me sk G Hbig d (Some (en_exp c)) Hd He) as (f & w & F1 & (M & FM & Ew) & F3 & F4).
  destruct (fp_encode_mant sk G _ _ _ _ F1) as (_ & _ & En & Em & Hge). destruct (mant_mod_cong sk G f M FM En) as [R _].
  unfold pe_add_float, en_add_scalar in H. rewrite Hpk, F1 in H. cbn [mbind res_bind] in H.
  assert (K : 16 ^ (fp_exp f - en_exp c) <= pk_max_int n).
  { assert (16 ^ (fp_exp f - en_exp c) <= 16 ^ 179) by (apply Z.pow_le_mono_r; lia). assert (16 ^ 179 <= 2 ^ 990) by (vm_compute; discriminate). lia. }
  assert (X : exists ec x', pk_raw_encrypt n (fp_enc f) (Some 1) 1 = Ok ec /\ cong (n * n) (en_ct x') (powmod (en_ct c) (16 ^ (fp_exp f - en_exp c)) (n * n)) /\
    c' = en_raw_add n (en_ct x') ec (fp_exp f)).
  { unfold en_add_fp in H. rewrite Hpk, En, Z.eqb_refl in H. cbn [negb] in H. destruct (en_exp c <? fp_exp f) eqn:E1.
    - destruct (en_increase c (fp_exp f)) as [x'|] eqn:Ei; [|discriminate]. cbn [mbind res_bind] in H.
      destruct (increase_ct c (fp_exp f) x' Hpk ltac:(lia) K Ei) as [P1 P2]. rewrite P1 in H.
      destruct (pk_raw_encrypt n (fp_enc f) (Some 1) 1) as [ec|] eqn:Ee; [|discriminate]. cbn [mbind res_bind] in H. injection H as <-.
      exists ec, x'. split; [reflexivity|]. split; [rewrite P2; apply cong_refl|]. f_equal.
      unfold en_increase in Ei. destruct (fp_exp f <? en_exp c); [discriminate|]. destruct (en_mul c _); [|discriminate]. cbn [mbind res_bind] in Ei. now injection Ei as <-.
    - rewrite (proj2 (Z.ltb_ge (fp_exp f) (en_exp c))) in H by lia. cbn [mbind res_bind] in H. rewrite Hpk in H.
      destruct (pk_raw_encrypt n (fp_enc f) (Some 1) 1) as [ec|] eqn:Ee; [|discriminate]. cbn [mbind res_bind] in H. injection H as <-.
      assert (EE : en_exp c = fp_exp f) by lia. exists ec, c. split; [reflexivity|]. split; [|now rewrite EE].
      rewrite EE, Z.sub_diag, Z.pow_0_r. now apply cong_sym, powmod_1. }
  destruct X as (ec & x' & Ee & Cx & ->). pose proof (plain_cong _ _ R Ee) as Ce.
  unfold read_diff. rewrite Hpk. cbn [en_raw_add en_exp en_ct]. set (a := powmod (en_ct c) _ _) in *.
  assert (RA : rel_prime a (n * n)).
  { apply gcd_rel in Hg. apply (rel_prime_sq sk) in Hg. subst a. unfold powmod. destruct (en_ct c =? 1); [apply rel_prime_1|].
    rewrite Zpow_mod_correct by lia. apply rel_prime_mod; [lia|]. apply rel_prime_sym. apply rel_prime_Zpower_r; [apply Z.pow_nonneg; lia|]. now apply rel_prime_sym. }
  destruct (invert_ok a (n * n) NN RA) as (di & Hdi & _ & Cd). rewrite Hdi. cbn [mbind res_bind].
  eexists. split; [reflexivity|].
  assert (V : (en_ct x' * ec mod pk_nsquare n * di) mod (n * n) = 1 + n * fp_enc f).
  { rewrite <- (Z.mod_small (1 + n * fp_enc f) (n * n)) by nia. apply cong_mod_eq; [lia|].
    eapply cong_trans; [apply cong_mul; [apply cong_mod; unfold pk_nsquare; lia|apply cong_refl]|].
    eapply cong_trans; [apply cong_mul; [apply cong_mul; [exact Cx|exact Ce]|apply cong_refl]|].
    replace (a * (1 + n * fp_enc f) * di) with ((a * di) * (1 + n * fp_enc f)) by ring.
    eapply cong_trans; [apply cong_mul; [exact Cd|apply cong_refl]|]. apply cong_eq. ring. }
  rewrite V. replace (1 + n * fp_enc f - 1) with (fp_enc f * n) by ring. rewrite Z.div_mul by lia.
  replace (if n <? 2 * fp_enc f then fp_enc f - n else fp_enc f) with M; [now rewrite <- Ew|].
  destruct FM as (_ & _ & FB & FE). rewrite En, Em in *. rewrite FE. destruct (Z_lt_le_dec M 0).
  - replace (M mod n) with (M + n) by (apply (Z.mod_unique_pos M n (-1)); lia). rewrite (proj2 (Z.ltb_lt _ _)) by lia. lia.
  - rewrite Z.mod_small by lia. rewrite (proj2 (Z.ltb_ge _ _)) by lia. lia.
Qed.
End sk.
