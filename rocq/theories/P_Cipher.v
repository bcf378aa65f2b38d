(** C21, C22: the RSA and affine ciphers. *)
From Verif Require Import PyBase QcBase FixedPointModel FixedPointSpec FixedPointProofs PaillierModel PaillierSpec PaillierProofs
  EncNumProofs CipherModel CipherSpec CipherProofs.
From Coq Require Import Lia Znumtheory.
Local Open Scope Z_scope.

(** C21. For every pair of distinct primes and exponents inverse to each other modulo lcm(p-1, q-1), decryption
    inverts encryption; keys may come from generate_key or from the two setters in either order. *)
Theorem C21_roundtrip p q e d m r : prime p -> prime q -> p <> q -> 0 < e -> 0 < d ->
  (e * d) mod Z.lcm (p - 1) (q - 1) = 1 mod Z.lcm (p - 1) (q - 1) -> 0 <= m < p * q ->
  r = rsa_generate e d (p * q) rsa_init \/
  r = rsa_set_private d (p * q) (rsa_set_public e (p * q) rsa_init) \/
  r = rsa_set_public e (p * q) (rsa_set_private d (p * q) rsa_init) ->
  exists c, rsa_encrypt r m = Some c /\ 0 <= c < p * q /\ rsa_decrypt r c = Some m.
Proof.
  intros Hp Hq Hpq He Hd Hl Hm Hr. pose proof (prime_gt1 p Hp). pose proof (prime_gt1 q Hq).
  exists (powmod m e (p * q)).
  assert (R : powmod (powmod m e (p * q)) d (p * q) = m).
  { rewrite (rsa_roundtrip p q e d m) by (auto; nia). now apply Z.mod_small. }
  assert (0 <= powmod m e (p * q) < p * q) by (apply powmod_range; nia).
  destruct Hr as [->|[->| ->]]; cbn; rewrite R; auto.
Qed.
Print Assumptions C21_roundtrip.

(** Ciphertexts can be multiplied: the product decrypts to the product of the plaintexts modulo n. *)
Theorem C21_product p q e d m m' r : prime p -> prime q -> p <> q -> 0 < e -> 0 < d ->
  (e * d) mod Z.lcm (p - 1) (q - 1) = 1 mod Z.lcm (p - 1) (q - 1) ->
  r = rsa_generate e d (p * q) rsa_init ->
  exists c c', rsa_encrypt r m = Some c /\ rsa_encrypt r m' = Some c' /\
    rsa_decrypt r (c * c') = Some ((m * m') mod (p * q)).
Proof.
  intros Hp Hq Hpq He Hd Hl ->. pose proof (prime_gt1 p Hp). pose proof (prime_gt1 q Hq).
  assert (N1 : 1 < p * q) by nia.
  exists (powmod m e (p * q)), (powmod m' e (p * q)). split; [reflexivity|]. split; [reflexivity|]. cbn. f_equal.
  rewrite <- (rsa_roundtrip p q e d (m * m')) by (auto; nia).
  rewrite <- (Z.mod_small (powmod (powmod m e (p * q) * _) d _) (p * q)) by (apply powmod_range; lia).
  rewrite <- (Z.mod_small (powmod (powmod (m * m') e (p * q)) d _) (p * q)) by (apply powmod_range; lia).
  apply cong_mod_eq; [lia|]. eapply cong_trans; [apply powmod_cong; lia|].
  apply cong_sym. eapply cong_trans; [apply powmod_cong; lia|]. apply cong_pow; [lia|].
  eapply cong_trans; [apply powmod_cong; lia|]. rewrite Z.pow_mul_l. apply cong_sym, cong_mul; apply powmod_cong; lia.
Qed.
Print Assumptions C21_product.

(** Without the matching half of the key the result is None, whatever was set before. *)
Theorem C21_no_key e d n v :
  rsa_encrypt rsa_init v = None /\ rsa_decrypt rsa_init v = None /\
  rsa_decrypt (rsa_set_public e n rsa_init) v = None /\ rsa_encrypt (rsa_set_private d n rsa_init) v = None.
Proof. repeat split; reflexivity. Qed.
Print Assumptions C21_no_key.

Example C21_ex : prime 101 /\ prime 113 /\ (3 * 1867) mod Z.lcm 100 112 = 1 mod Z.lcm 100 112 /\
  rsa_encrypt (rsa_generate 3 1867 11413 rsa_init) 9999 = Some 2525 /\
  rsa_decrypt (rsa_generate 3 1867 11413 rsa_init) 2525 = Some 9999.
Proof.
  split; [apply prime_check_ok; vm_compute; reflexivity|]. split; [apply prime_check_ok; vm_compute; reflexivity|].
  vm_compute. auto.
Qed.

(** C22. Every key that can be built (gcd(a, n) = 1), every expression over encrypted numbers with int zeros, +, -
    and integer factors: evaluation succeeds; the result is the int 0 or a ciphertext, and in the second case it
    decrypts to the expression over the encoded plaintexts whenever that integer lies in the sign window. *)
Theorem C22_expressions a b n k e : 1 < n -> mk_akey a b n (2 ^ 100) = Ok k -> leaves_ok e ->
  exists M x, aval enc100 e M /\ aeval k e = Ok x /\
    match x with
    | AInt z => z = 0 /\ M = 0
    | ACipher c => - 999999 * n <= 10000000 * M <= 8999999 * n ->
        aff_raw_decrypt k c = Ok M /\
        ((qabs (zq M / zq (2 ^ 100)) < p2 1023)%Qc -> aff_decrypt k c = Ok (PyFloat (fround (zq M / zq (2 ^ 100)))))
    end.
Proof.
  intros Hn Hk He.
  destruct (aeval_ok a b n (2 ^ 100) k Hn Hk enc100
    (fun x => match x with PyInt _ => True | PyFloat q => is_double q /\ (qabs q < p2 924)%Qc end) e) as (M & x & A & B & C).
  - intros x Hx. now apply encode100_ok.
  - clear - He. induction e as [|[]| | | |]; cbn in *; tauto.
  - exists M, x. split; [exact A|]. split; [exact B|]. destruct x as [z|c]; [exact C|].
    intros W. destruct (raw_dec_value a b n (2 ^ 100) k Hn Hk c M C) as (D & HD & _ & _ & E). rewrite (E W) in HD.
    split; [exact HD|]. intros L. unfold aff_decrypt. rewrite HD. cbn [mbind res_bind].
    destruct (akey_inv a b n (2 ^ 100) k Hn Hk) as (_ & _ & _ & -> & _).
    unfold aff_decode, int_truediv. change (2 ^ 100 =? 0) with false. cbv zeta iota.
    set (y := (zq M / zq (2 ^ 100))%Qc) in *.
    assert (F : qleb (p2 1024) (qabs (fround y)) = false).
    { apply qleb_false. replace (fround y) with ((fround y - y) + y)%Qc by ring.
      eapply Qcle_lt_trans; [apply qabs_triangle|]. pose proof (fround_err y) as FE.
      change 1024 with (1023 + 1). rewrite p2_add. change (p2 1) with (Q2Qc (2 # 1)).
      change (p2 (-53)) with (Q2Qc (1 # 9007199254740992)) in FE. pose proof (p2_pos 1023). qnra. }
    rewrite F. reflexivity.
Qed.
Print Assumptions C22_expressions.

(** The leaf encoding is the truncation of 2^100 times the number: for an int exact, otherwise off by less than 1. *)
Theorem C22_leaf_encoding x z : enc100 x z ->
  (qabs (zq (2 ^ 100) * FixedPointModel.num x - zq z) < zq 1)%Qc /\
  (forall i, x = PyInt i -> z = 2 ^ 100 * i).
Proof.
  intros (_ & H & _). split; [exact H|]. intros i ->. cbn [FixedPointModel.num] in H. rewrite <- zq_mul, <- zq_sub, qabs_zq in H.
  rewrite zq_lt in H. lia.
Qed.
Print Assumptions C22_leaf_encoding.

(** Outside the window decryption never gives the right integer and raises no error. *)
Theorem C22_outside a b n k e M c : 1 < n -> mk_akey a b n (2 ^ 100) = Ok k -> leaves_ok e ->
  (forall z, aval enc100 e z -> z = M) -> aeval k e = Ok (ACipher c) ->
  10000000 * M < - 1000001 * n \/ 9000001 * n < 10000000 * M ->
  exists D, aff_raw_decrypt k c = Ok D /\ D <> M /\ (n | D - M).
Proof.
  intros Hn Hk He Hu Hc HM.
  destruct (aeval_ok a b n (2 ^ 100) k Hn Hk enc100
    (fun x => match x with PyInt _ => True | PyFloat q => is_double q /\ (qabs q < p2 924)%Qc end) e) as (M' & x & A & B & C).
  - intros x Hx. now apply encode100_ok.
  - clear - He. induction e as [|[]| | | |]; cbn in *; tauto.
  - rewrite (Hu M' A) in C. rewrite Hc in B. injection B as <-.
    destruct (raw_dec_value a b n (2 ^ 100) k Hn Hk c M C) as (D & HD & CD & RD & _).
    exists D. split; [exact HD|]. split; [lia|]. exact CD.
Qed.
Print Assumptions C22_outside.

(** Key generation: the first drawn a that is prime to n gives a working key; a key made from an a that is not prime
    to n is refused. *)
Theorem C22_generate n cands b mult : 1 < n ->
  match aff_generate n cands b mult with
  | None => Forall (fun a => Z.gcd n a <> 1) cands
  | Some r => exists pre a post k, cands = pre ++ a :: post /\ Forall (fun a' => Z.gcd n a' <> 1) pre /\
                r = Ok k /\ ak_a k = a /\ ak_b k = b /\ ak_n k = n /\ ak_mult k = mult /\ (a * ak_inv k) mod n = 1
  end.
Proof.
  intros Hn. unfold aff_generate. induction cands as [|a cands IH]; cbn [List.find]; [constructor|].
  destruct (Z.gcd n a =? 1) eqn:E.
  - apply Z.eqb_eq in E. destruct (invert_ok a n Hn) as (x & Hx & _ & C).
    { apply gcd_rel. now rewrite Z.gcd_comm. }
    exists [], a, cands, (AK a b n x mult). split; [reflexivity|]. split; [constructor|].
    unfold mk_akey. rewrite Hx. cbn. repeat (split; [reflexivity|]).
    apply cong_mod_eq in C; [|lia]. rewrite C. apply Z.mod_1_l. lia.
  - apply Z.eqb_neq in E. destruct (List.find _ cands).
    + destruct IH as (pre & a' & post & k & -> & F & R). exists (a :: pre), a', post, k. split; [reflexivity|].
      split; [constructor; assumption|exact R].
    + constructor; assumption.
Qed.
Print Assumptions C22_generate.

Theorem C22_bad_key a b n mult : 1 < n -> Z.gcd a n <> 1 -> mk_akey a b n mult = Err ZeroDivisionError.
Proof. intros Hn Hg. unfold mk_akey. rewrite invert_err; [reflexivity|exact Hn|]. now rewrite <- gcd_rel. Qed.
Print Assumptions C22_bad_key.

(** A ciphertext can never be divided, nor added to a non-zero number. *)
Theorem C22_unsupported c z y : z <> 0 ->
  (forall r, aff_div c y <> Ok r) /\ aff_add (ACipher c) (AInt z) = Err TypeError /\ aff_add (AInt z) (ACipher c) = Err TypeError
  /\ forall d, aff_mul (ACipher c) (ACipher d) = Err TypeError.
Proof.
  intros Hz. split; [|split; [|split]].
  - intros r. destruct y as [i|]; cbn; [destruct (i =? 0)|]; discriminate.
  - cbn. now rewrite (proj2 (Z.eqb_neq z 0)).
  - cbn. now rewrite (proj2 (Z.eqb_neq z 0)).
  - reflexivity.
Qed.
Print Assumptions C22_unsupported.

(** A key with n = 2^110 - 21; 3 * (5 - 1/2) - 100 = -86.5, and a sum leaving the window. *)
Definition ex_ak : akey := Eval vm_compute in
  match mk_akey 12345678901234567 987654321 (2 ^ 110 - 21) (2 ^ 100) with Ok k => k | Err _ => AK 0 0 0 0 0 end.
Definition ex_aexpr : aexpr := ESub (EMul 3 (EAdd EZero (ESub (ELeaf (PyInt 5)) (ELeaf (PyFloat (Q2Qc (1 # 2))))))) (EMulR (ELeaf (PyInt 100)) 1).
Example C22_ex : mk_akey 12345678901234567 987654321 (2 ^ 110 - 21) (2 ^ 100) = Ok ex_ak /\ leaves_ok ex_aexpr /\
  exists c, aeval ex_ak ex_aexpr = Ok (ACipher c) /\
  exists q, aff_decrypt ex_ak c = Ok (PyFloat q) /\ q = Q2Qc (-173 # 2).
Proof.
  split; [vm_compute; reflexivity|]. split.
  - cbn. split; [|exact I]. split; [exact I|]. split; [exact I|]. split; [|reflexivity]. exists 1, (-1). split; [reflexivity|].
    apply Qc_is_canon. reflexivity.
  - eexists. split; [vm_compute; reflexivity|]. eexists. split; [vm_compute; reflexivity|]. apply Qc_is_canon. reflexivity.
Qed.

(** 500 + 500 = 1000 leaves the window of this key: decryption answers -24 (about) without an error. *)
Theorem C22_window_refuted : exists e c, leaves_ok e /\ aeval ex_ak e = Ok (ACipher c) /\
  aval enc100 e (2 ^ 100 * 500 + 2 ^ 100 * 500) /\ aff_raw_decrypt ex_ak c = Ok (2 ^ 100 * 1000 - (2 ^ 110 - 21)).
Proof.
  exists (EAdd (ELeaf (PyInt 500)) (ELeaf (PyInt 500))). eexists. split; [cbn; auto|]. split; [vm_compute; reflexivity|].
  split.
  - repeat constructor; vm_compute; try reflexivity; discriminate.
  - vm_compute. reflexivity.
Qed.
Print Assumptions C22_window_refuted.
