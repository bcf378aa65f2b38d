(** The histogram arithmetic on Paillier ciphertexts. *)
From Verif Require Export HistProofs PaillierSpec NumTheory PaillierProofs EncNumProofs FixedPointProofs FloatProofs.
Local Open Scope Z_scope.

(** Exact numbers: [c] stands for itself. *)
Lemma qops_laws : numlaws qops (fun c _ q => c = q).
Proof. constructor; cbn; [reflexivity|intros; subst; eauto..]. Qed.

(** Cells start as the int 0; ciphertexts are added and subtracted by their operators. *)
Definition pops : numops cell := NumOps (CNum (PyInt 0)) cell_add cell_sub.

Section sk.
Variable sk : privkey.
Hypothesis G : good_sk sk.
Local Notation n := (sk_n sk).
Hypothesis Hbig : 2 ^ 1000 <= n.

Lemma pops_laws : numlaws pops (cell_inv sk).
Proof.
  constructor; cbn [pops nzero nadd nsub].
  - cbn. auto.
  - intros x y L L' a b Hx Hy. exact (add_inv sk G Hbig x y L L' a b Hx Hy).
  - intros x y L L' a b Hx Hy. unfold cell_sub. destruct (neg_inv sk G Hbig y L' b Hy) as (y' & -> & Hy'). cbn [mbind res_bind].
    exact (add_inv sk G Hbig x y' L L' a (- b)%Qc Hx Hy').
Qed.

(** A freshly encrypted number of magnitude at most 1. *)
Lemma fresh_cell v r : (qabs v <= zq 1)%Qc -> Z.gcd r n = 1 ->
  exists x, pk_encrypt n (PyFloat v) None None r = Ok x /\ cell_inv sk (CEnc x) 1 (leaf_value n v).
Proof.
  intros Hv Hr. destruct (geval_inv sk G Hbig (GLeaf v r)) as (c & E & I); [split; auto|].
  cbn [geval] in E. destruct (pk_encrypt n (PyFloat v) None None r) as [x|e]; cbn in E; [|discriminate].
  injection E as <-. exists x. auto.
Qed.

(** A cell built from at least one ciphertext decrypts to the nearest double of what it stands for. *)
Lemma cell_decrypt c L q : cell_inv sk c L q -> 1 <= L <= 2 ^ 53 ->
  exists v, sk_decrypt sk c = Ok v /\ num v = fround q.
Proof.
  intros Ic HL. destruct c as [v|x]; [cbn in Ic; lia|].
  destruct Ic as (Hex & _ & M & Hx & HM & Eq).
  pose proof (max_big sk G Hbig) as HB. pose proof (p16_179 (en_exp x)).
  assert (HMs : Z.abs M <= 2 ^ 916).
  { replace (2 ^ 916) with (2 ^ 200 * 2 ^ 716) by reflexivity.
    assert (0 < 16 ^ en_exp x) by (apply Z.pow_pos_nonneg; lia).
    assert (2 ^ 53 <= 2 ^ 200) by (vm_compute; discriminate). nia. }
  assert (2 ^ 916 <= 2 ^ 990) by (vm_compute; discriminate).
  assert (V : en_value sk x q) by (exists M; split; [lia|auto]).
  destruct (decrypt_value sk x _ G V) as [D1 D2].
  destruct (Z_le_gt_dec (en_exp x) 0) as [Hz|Hz].
  - destruct (D1 Hz) as (z & Hz1 & Hz2). exists (PyInt z). split; [exact Hz1|]. cbn [num] in Hz2 |- *.
    assert (E0 : en_exp x = 0) by lia. rewrite E0 in Eq, HM. change (- (4 * 0)) with 0 in Eq. rewrite p2_0, Qcmult_1_r in Eq.
    rewrite <- Hz2 in Eq. apply zq_inj in Eq. subst z. rewrite <- Hz2, fround_zq; [reflexivity|]. rewrite Z.pow_0_r in HM. lia.
  - rewrite D2 by lia.
    assert (L' : qleb (zq float_limit) (qabs q * p2 (4 * en_exp x)) = false).
    { apply qleb_false. rewrite Eq, qabs_mul, qabs_zq, qabs_p2, <- Qcmult_assoc, p2_sub_add.
      replace (- (4 * en_exp x) + 4 * en_exp x) with 0 by lia. rewrite p2_0, Qcmult_1_r. apply zq_lt.
      assert (2 ^ 916 < float_limit) by reflexivity. lia. }
    rewrite L'. eexists. split; [reflexivity|]. reflexivity.
Qed.
End sk.
