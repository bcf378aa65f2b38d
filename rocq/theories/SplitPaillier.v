(** Encrypting and decrypting a gain. *)
From Verif Require Export SplitProofs HistPaillier EncryptModePaillier.
Local Open Scope Z_scope.

Section sk.
Variable sk : privkey.
Hypothesis G : good_sk sk.
Local Notation n := (sk_n sk).
Hypothesis Hbig : 2 ^ 1000 <= n.

Lemma gain_roundtrip x r : (qabs x <= zq (2 ^ 29))%Qc -> Z.gcd r n = 1 ->
  exists e v, pk_encrypt n (PyFloat x) None None r = Ok e /\ sk_decrypt sk (CEnc e) = Ok v /\
    FixedPointModel.num v = leaf_value n x /\ (qabs (FixedPointModel.num v - x) <= FLOAT_ZERO)%Qc.
Proof.
  intros Hx Hr. destruct (encode_float_me sk G Hbig x None) as (f & w & F1 & (m & Hm & Ew) & F3 & F4); [|exact I|].
  { eapply Qcle_trans; [exact Hx|]. apply zq_le. lia. }
  destruct (pk_encrypt_ok sk G (PyFloat x) None r f m F1 Hm Hr) as (e & He & Mx & Ex). exists e.
  destruct (fp_encode_mant sk G _ _ _ _ F1) as (m' & _ & _ & Em & _).
  assert (HM : Z.abs m <= pk_max_int n) by (destruct Hm as (_ & _ & Hm & _); now rewrite Em in Hm).
  rewrite (dec_mant sk G e m Mx HM), Ex, <- (fp_decode_mant f m Hm).
  assert (AB : (qabs w <= zq (2 ^ 30))%Qc).
  { replace w with ((w - x) + x)%Qc by ring. eapply Qcle_trans; [apply qabs_triangle|]. pose proof tiny_small as TS.
    change (p2 (-60)) with (Q2Qc (1 # 1152921504606846976)) in TS. change (p2 (-50)) with (Q2Qc (1 # 1125899906842624)) in F4.
    change (zq (2 ^ 29)) with (Q2Qc (536870912 # 1)) in Hx. change (zq (2 ^ 30)) with (Q2Qc (1073741824 # 1)). qlra. }
  assert (exists v, fp_decode f = Ok v /\ (FixedPointModel.num v = w \/ FixedPointModel.num v = fround w)) as (v & Hv & Nv).
  { rewrite (fp_decode_mant f m Hm). destruct (decode_value m (fp_exp f) w Ew) as [D1 D2].
    destruct (Z_le_gt_dec (fp_exp f) 0) as [L|L].
    - destruct (D1 L) as (z & -> & Hz). eexists. split; [reflexivity|]. left. exact Hz.
    - rewrite (D2 ltac:(lia)). destruct (Z.leb_spec float_limit (Z.abs m)) as [C|C]; [exfalso|eexists; split; [reflexivity|]; right; reflexivity].
      assert (C2 : (qabs w <= zq (2 ^ 30))%Qc) by exact AB. rewrite Ew, qabs_mul, qabs_zq, qabs_p2 in C2.
      assert (C3 : (zq (Z.abs m) <= zq (2 ^ 30) * p2 (4 * fp_exp f))%Qc).
      { replace (zq (Z.abs m)) with (zq (Z.abs m) * p2 (- (4 * fp_exp f)) * p2 (4 * fp_exp f))%Qc.
        - pose proof (p2_pos (4 * fp_exp f)). qnra.
        - rewrite <- Qcmult_assoc, p2_sub_add. replace (- (4 * fp_exp f) + 4 * fp_exp f) with 0 by lia. rewrite p2_0. ring. }
      assert (C4 : (zq (Z.abs m) <= zq (2 ^ 30 * 2 ^ 716))%Qc).
      { eapply Qcle_trans; [exact C3|]. rewrite zq_mul. assert (P : (p2 (4 * fp_exp f) <= zq (2 ^ 716))%Qc).
        { change (2 ^ 716) with (2 ^ 716)%Z; rewrite <- (p2_nonneg 716) by lia. apply p2_le. lia. }
        assert (PP : (zq 0 <= zq (2 ^ 30))%Qc) by (vm_compute; discriminate). rewrite zq_0 in PP. qnra. }
      rewrite zq_le in C4. assert (2 ^ 30 * 2 ^ 716 < float_limit) by reflexivity. apply (Z.lt_irrefl float_limit). eapply Z.le_lt_trans; [exact C|]. eapply Z.le_lt_trans; [exact C4|assumption]. }
  exists v. split; [exact He|]. split; [exact Hv|]. split; [unfold leaf_value; now rewrite F1, Hv|].
  assert (ER : (qabs (FixedPointModel.num v - w) <= p2 (-53) * qabs w)%Qc).
  { destruct Nv as [->| ->]; [|apply fround_err]. replace (w - w)%Qc with 0%Qc by ring. change (qabs 0) with 0%Qc.
    pose proof (qabs_nonneg w). pose proof (p2_pos (-53)). qnra. }
  replace (FixedPointModel.num v - x)%Qc with ((FixedPointModel.num v - w) + (w - x))%Qc by ring.
  eapply Qcle_trans; [apply qabs_triangle|]. pose proof tiny_small as TS.
  change (p2 (-60)) with (Q2Qc (1 # 1152921504606846976)) in TS. change (p2 (-50)) with (Q2Qc (1 # 1125899906842624)) in F4.
  change (p2 (-53)) with (Q2Qc (1 # 9007199254740992)) in ER.
  change (zq (2 ^ 29)) with (Q2Qc (536870912 # 1)) in Hx. change (zq (2 ^ 30)) with (Q2Qc (1073741824 # 1)) in AB.
  change FLOAT_ZERO with (Q2Qc (1 # 1000000)). qlra.
Qed.
End sk.
