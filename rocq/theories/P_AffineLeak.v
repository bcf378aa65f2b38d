(** C81: what ciphertexts of the affine cipher tell somebody without the key. *)
From Verif Require Import PyBase QcBase FixedPointModel PaillierModel PaillierProofs CipherModel CipherSpec CipherProofs.
From Coq Require Import Lia Znumtheory.
Local Open Scope Z_scope.

(** A ciphertext of the integer [i]: only the number that is sent. *)
Definition sent (k : akey) (i c : Z) : Prop := exists x, aff_encrypt k (PyInt i) = Ok x /\ ac_cipher x = c.

Section Key.
Context (a b n mult : Z) (k : akey) (Hn : 1 < n) (Hk : mk_akey a b n mult = Ok k).
Lemma sent_value i c : sent k i c -> 0 <= c < n /\ cong n c (a * (mult * i) + b).
Proof.
  intros (x & E & <-). destruct (akey_inv a b n mult k Hn Hk) as (Ea & Eb & En & Em & _). unfold aff_encrypt in E. cbn [aff_encode] in E. cbn [mbind res_bind] in E. injection E as <-. cbn [aff_raw_encrypt ac_cipher].
  rewrite Ea, Eb, En, Em. split; [apply Z.mod_pos_bound; lia|apply cong_mod; lia].
Qed.
Lemma a_unit : rel_prime a n.
Proof. unfold mk_akey in Hk. destruct (invert a n) as [x|] eqn:E; [|discriminate]. now apply (invert_inv a n x Hn). Qed.
Lemma sent_diff i j c d : sent k i c -> sent k j d -> cong n (c - d) (a * (mult * (i - j))).
Proof. intros [_ H]%sent_value [_ G]%sent_value. eapply cong_trans; [exact (cong_sub _ _ _ _ _ H G)|]. apply cong_eq. ring. Qed.
End Key.

(** Equal ciphertexts are seen to be equal plaintexts: encryption is not randomised. *)
Theorem C81_equal a b n mult k i j c d : 1 < n -> mk_akey a b n mult = Ok k -> sent k i c -> sent k j d -> (c = d <-> (n | mult * (i - j))).
Proof.
  intros Hn Hk C D. pose proof (sent_diff a b n mult k Hn Hk i j c d C D) as X. destruct (sent_value a b n mult k Hn Hk i c C) as [Rc _]. destruct (sent_value a b n mult k Hn Hk j d D) as [Rd _]. split.
  - intros ->. apply (Gauss n a); [|apply rel_prime_sym, (a_unit a b n mult k Hn Hk)]. apply cong_sym in X. unfold cong in X. now replace (a * (mult * (i - j))) with (a * (mult * (i - j)) - (d - d)) by ring.
  - intros V. assert (Y : cong n c d). { unfold cong in *. replace (c - d) with ((c - d - a * (mult * (i - j))) + a * (mult * (i - j))) by ring. apply Z.divide_add_r; [exact X|now apply Z.divide_mul_r]. }
    apply (cong_mod_eq n c d ltac:(lia)) in Y. now rewrite !Z.mod_small in Y by lia.
Qed.
Print Assumptions C81_equal.

(** Four integers with equal differences give a multiple of the secret modulus. *)
Theorem C81_modulus a b n mult k i j u v ci cj cu cv : 1 < n -> mk_akey a b n mult = Ok k -> i - j = u - v -> sent k i ci -> sent k j cj -> sent k u cu -> sent k v cv -> (n | (ci - cj) - (cu - cv)).
Proof.
  intros Hn Hk E A B C D. pose proof (sent_diff a b n mult k Hn Hk i j ci cj A B) as X. pose proof (sent_diff a b n mult k Hn Hk u v cu cv C D) as Y. rewrite <- E in Y.
  exact (cong_trans _ _ _ _ X (cong_sym _ _ _ Y)).
Qed.
Print Assumptions C81_modulus.

(** Somebody who knows the modulus and two plaintexts reads every other integer: [crack] has no part of the key but n. *)
Definition crack (n i0 c0 i1 c1 c : Z) : Z := match invert (c1 - c0) n with Ok x => (i0 + (i1 - i0) * (c - c0) * x) mod n | Err _ => 0 end.
Theorem C81_secret_refuted : exists reader : Z -> Z -> Z -> Z -> Z -> Z -> Z,
  forall a b n mult k i0 c0 i1 c1, 1 < n -> mk_akey a b n mult = Ok k -> Z.gcd (mult * (i1 - i0)) n = 1 -> sent k i0 c0 -> sent k i1 c1 ->
  forall i c, 0 <= i < n -> sent k i c -> reader n i0 c0 i1 c1 c = i.
Proof.
  exists crack. intros a b n mult k i0 c0 i1 c1 Hn Hk G A B i c R C.
  pose proof (a_unit a b n mult k Hn Hk) as UA. assert (UM : rel_prime (mult * (i1 - i0)) n) by now apply Zgcd_1_rel_prime.
  pose proof (sent_diff a b n mult k Hn Hk i1 i0 c1 c0 B A) as X1. pose proof (sent_diff a b n mult k Hn Hk i i0 c c0 C A) as X.
  assert (U : rel_prime (a * (mult * (i1 - i0))) n) by (apply rel_prime_sym, rel_prime_mult; now apply rel_prime_sym).
  assert (U1 : rel_prime (c1 - c0) n). { destruct X1 as [z X1]. replace (c1 - c0) with (a * (mult * (i1 - i0)) + z * n) by lia. apply Zgcd_1_rel_prime in U. apply Zgcd_1_rel_prime. now rewrite Z.gcd_comm, Z.gcd_add_mult_diag_r, Z.gcd_comm. }
  unfold crack. destruct (invert_ok (c1 - c0) n Hn U1) as (x & -> & _ & IX).
  transitivity (i mod n); [|now apply Z.mod_small]. apply cong_mod_eq; [lia|]. apply (cong_cancel n (a * (mult * (i1 - i0)))); [exact U|].
  (* a mult d (i0 + d (c - c0) x) = a mult d i0 + d (c1 - c0) (c - c0) x = a mult d i0 + d a mult (i - i0) *)
  set (d := i1 - i0) in *. assert (Y : cong n (a * (mult * d) * (d * (c - c0) * x)) (d * (a * (mult * (i - i0))))).
  { eapply cong_trans; [apply (cong_mul n _ (c1 - c0) _ (d * (c - c0) * x)); [apply cong_sym, X1|apply cong_refl]|].
    replace ((c1 - c0) * (d * (c - c0) * x)) with (d * (c - c0) * ((c1 - c0) * x)) by ring.
    eapply cong_trans; [apply (cong_mul n _ (d * (a * (mult * (i - i0)))) _ 1); [apply cong_mul; [apply cong_refl|exact X]|exact IX]|]. apply cong_eq. ring. }
  replace (a * (mult * d) * (i0 + d * (c - c0) * x)) with (a * (mult * d) * i0 + a * (mult * d) * (d * (c - c0) * x)) by ring.
  eapply cong_trans; [apply cong_add; [apply cong_refl|exact Y]|]. apply cong_eq. ring.
Qed.
Print Assumptions C81_secret_refuted.

(** A multiplier of 1, which is the only one of one bit: differences of ciphertexts are differences of plaintexts. Key generation draws
    the number of bits of the multiplier at random, so one bit occurs. *)
Theorem C81_weak_key n cands b mult k i j c d : 1 < n -> Forall (fun a => 0 <= a < 2 ^ 1) cands -> aff_generate n cands b mult = Some (Ok k) -> sent k i c -> sent k j d -> (n | (c - d) - mult * (i - j)).
Proof.
  intros Hn F G C D. unfold aff_generate in G. destruct (List.find _ cands) as [a|] eqn:E; [|discriminate]. injection G as G. apply List.find_some in E as [I E]. apply Z.eqb_eq in E.
  assert (A : a = 1). { rewrite Forall_forall in F. specialize (F a). rewrite elem_of_list_In in F. specialize (F I). change (2 ^ 1) with 2 in F. destruct (Z.eq_dec a 0) as [->|]; [|lia]. rewrite Z.gcd_0_r, Z.abs_eq in E; lia. }
  subst a. pose proof (sent_diff 1 b n mult k Hn G i j c d C D) as X. now rewrite Z.mul_1_l in X.
Qed.
Print Assumptions C81_weak_key.

(** Examples. *)
Definition lex_key : akey := Eval vm_compute in match mk_akey 1234567 89 (2 ^ 127 - 1) (2 ^ 100) with Ok k => k | Err _ => AK 0 0 0 0 0 end.
Definition lex_c (i : Z) : Z := match aff_encrypt lex_key (PyInt i) with Ok x => ac_cipher x | Err _ => 0 end.
Example C81_ex : 1 < 2 ^ 127 - 1 /\ mk_akey 1234567 89 (2 ^ 127 - 1) (2 ^ 100) = Ok lex_key /\ Z.gcd (2 ^ 100 * (5 - 4)) (2 ^ 127 - 1) = 1 /\ sent lex_key 4 (lex_c 4) /\ sent lex_key 5 (lex_c 5) /\ sent lex_key 1000 (lex_c 1000) /\
  crack (2 ^ 127 - 1) 4 (lex_c 4) 5 (lex_c 5) (lex_c 1000) = 1000 /\ (lex_c 109 - lex_c 108) - (lex_c 5 - lex_c 4) = - (2 ^ 127 - 1).
Proof.
  split; [vm_compute; reflexivity|]. split; [vm_compute; reflexivity|]. split; [vm_compute; reflexivity|].
  split; [eexists; split; vm_compute; reflexivity|]. split; [eexists; split; vm_compute; reflexivity|]. split; [eexists; split; vm_compute; reflexivity|].
  split; vm_compute; reflexivity.
Qed.
Example C81_weak_ex : exists k, aff_generate (2 ^ 127 - 1) [0; 1] 77 (2 ^ 100) = Some (Ok k) /\ sent k 3 (2 ^ 100 * 3 + 77).
Proof. eexists. split; [vm_compute; reflexivity|]. eexists. split; vm_compute; reflexivity. Qed.
