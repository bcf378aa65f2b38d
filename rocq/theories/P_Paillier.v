(** C12-C18: the Paillier cipher and arithmetic on encrypted numbers. *)
From Verif Require Import PyBase QcBase NumTheory FixedPointModel FixedPointSpec FixedPointProofs
  PaillierModel PaillierSpec PaillierProofs EncNumProofs.
From Coq Require Import Lia.
Local Open Scope Z_scope.

(** C12. For every pair of distinct primes the private key can be built, and for every plaintext and every
    obfuscation value prime to n (given or drawn) decryption inverts encryption. *)
Theorem C12_roundtrip p q m rv fresh : prime p -> prime q -> p <> q -> 0 <= m < p * q ->
  Z.gcd (match rv with Some r => if r =? 0 then fresh else r | None => fresh end) (p * q) = 1 ->
  exists sk c, mk_privkey (p * q) p q = Ok sk /\ pk_raw_encrypt (p * q) m rv fresh = Ok c
    /\ Z.gcd c (p * q) = 1 /\ sk_raw_decrypt sk c = m.
Proof.
  intros Hp Hq Hpq Hm Hr. destruct (mk_privkey_ok p q Hp Hq Hpq) as (sk & Hsk & _).
  destruct (mk_privkey_good _ _ _ _ Hp Hq Hsk) as (G & _ & _ & En).
  destruct (raw_encrypt_ok sk G m rv fresh) as (c & Hc & Ec).
  { now rewrite En. } { rewrite En. now apply gcd_rel. }
  exists sk, c. rewrite En in Hc. split; [exact Hsk|]. split; [exact Hc|]. split.
  - assert (EM : en_mant sk (EN (sk_n sk) c 0) m) by (apply (en_mant_encr sk G); auto).
    destruct EM as (_ & EM & _). now rewrite En in EM.
  - rewrite (encr_decrypt sk G c m Ec), En. now apply Z.mod_small.
Qed.
Print Assumptions C12_roundtrip.

(** A small concrete key. *)
Definition sk_small : privkey :=
  Eval vm_compute in match mk_privkey 11413 101 113 with Ok k => k | Err _ => SK 0 0 0 0 0 0 end.
Example sk_small_key : keypair 11413 sk_small.
Proof.
  exists 101, 113. split; [apply prime_check_ok; vm_compute; reflexivity|].
  split; [apply prime_check_ok; vm_compute; reflexivity|vm_compute; reflexivity].
Qed.

(** Wrong factors are rejected when the key is built. *)
Theorem C12_bad_factors n p q : p * q <> n \/ p = q -> mk_privkey n p q = Err ValueError.
Proof.
  intros H. unfold mk_privkey. destruct (p * q =? n) eqn:E; cbn [negb]; [|reflexivity].
  destruct H as [H| ->]; [lia|]. now rewrite Z.eqb_refl.
Qed.
Print Assumptions C12_bad_factors.

Example C12_ex : prime 113 /\ prime 101 /\ Z.gcd 5 (113 * 101) = 1 /\
  match mk_privkey 11413 113 101 with
  | Ok sk => forallb (fun m => match pk_raw_encrypt 11413 m None 5 with
                               | Ok c => sk_raw_decrypt sk c =? m | Err _ => false end)
               [0; 1; 3803; 3804; 7609; 7610; 11412]
  | Err _ => false end = true
  /\ mk_privkey 11413 101 111 = Err ValueError.
Proof.
  split; [apply prime_check_ok; vm_compute; reflexivity|].
  split; [apply prime_check_ok; vm_compute; reflexivity|]. vm_compute. auto.
Qed.

(** C13. An obfuscation value that is not prime to n makes at least one of the plaintexts 0 and 1 decrypt wrongly.
    Nothing in apply_obfuscator excludes such a value. *)
Theorem C13_bad_obfuscator n sk r : keypair n sk -> 1 <= r < n -> Z.gcd r n <> 1 ->
  exists m c, (m = 0 \/ m = 1) /\ pk_raw_encrypt n m (Some r) r = Ok c /\ sk_raw_decrypt sk c <> m.
Proof.
  intros K. destruct (keypair_good n sk K) as [G <-]. intros Hr Hg.
  destruct (bad_obfuscator sk G r Hr Hg) as (m & Hm & c & Hc). exists m, c. tauto.
Qed.
Print Assumptions C13_bad_obfuscator.

Theorem C13_roundtrip_refuted : exists n sk r m c, keypair n sk /\ 1 <= r < n /\ 0 <= m < n /\
  pk_raw_encrypt n m (Some r) r = Ok c /\ sk_raw_decrypt sk c <> m.
Proof.
  exists 11413, sk_small, 202, 7. eexists. split; [exact sk_small_key|].
  split; [lia|]. split; [lia|]. split; [vm_compute; reflexivity|]. vm_compute. discriminate.
Qed.
Print Assumptions C13_roundtrip_refuted.

Example C13_ex : exists sk, keypair 11413 sk /\ 1 <= 202 < 11413 /\ Z.gcd 202 11413 <> 1.
Proof.
  exists sk_small. split; [exact sk_small_key|]. vm_compute. repeat split; discriminate.
Qed.

(** C14. Homomorphic laws for all ciphertexts prime to n. *)
Theorem C14_product n sk c d : keypair n sk -> Z.gcd c n = 1 -> Z.gcd d n = 1 ->
  sk_raw_decrypt sk (en_ct (en_raw_add n c d 0)) = (sk_raw_decrypt sk c + sk_raw_decrypt sk d) mod n
  /\ Z.gcd (en_ct (en_raw_add n c d 0)) n = 1.
Proof.
  intros K Hc Hd. destruct (keypair_good n sk K) as [G <-].
  assert (M : forall c, Z.gcd c (sk_n sk) = 1 -> en_mant sk (EN (sk_n sk) c 0) (sk_raw_decrypt sk c)).
  { intros x Hx. repeat split; [exact Hx|]. cbn. symmetry. apply Z.mod_small. apply (raw_decrypt_range sk G). }
  destruct (raw_add_ok sk G _ _ _ _ 0 (M c Hc) (M d Hd)) as (_ & A & B). auto.
Qed.
Print Assumptions C14_product.

Theorem C14_power n sk c k : keypair n sk -> Z.gcd c n = 1 -> 0 <= k ->
  sk_raw_decrypt sk (powmod c k (pk_nsquare n)) = (k * sk_raw_decrypt sk c) mod n.
Proof.
  intros K Hc%gcd_rel Hk. destruct (keypair_good n sk K) as [G <-].
  apply (encr_decrypt sk G), (encr_powmod sk G); [exact Hk|]. now apply (unit_encr sk G).
Qed.
Print Assumptions C14_power.

Theorem C14_inverse n sk c : keypair n sk -> Z.gcd c n = 1 ->
  exists d, invert c (pk_nsquare n) = Ok d /\ Z.gcd d n = 1 /\
            sk_raw_decrypt sk d = (- sk_raw_decrypt sk c) mod n.
Proof.
  intros K Hc%gcd_rel. destruct (keypair_good n sk K) as [G <-].
  destruct (encr_invert sk G c _ (unit_encr sk G c Hc)) as (d & Hd & Ed).
  exists d. split; [exact Hd|].
  assert (EM : en_mant sk (EN (sk_n sk) d 0) (- sk_raw_decrypt sk c)) by (apply (en_mant_encr sk G); auto).
  destruct EM as (_ & A & B). auto.
Qed.
Print Assumptions C14_inverse.

(** A ciphertext that shares a factor with n has no inverse: multiplying it by a negative number raises, by any other does not. *)
Theorem C14_no_inverse n sk x s : keypair n sk -> en_pk x = n -> Z.gcd (en_ct x) n <> 1 -> Z.abs s <= pk_max_int n ->
  (s < 0 -> en_mul x (PyInt s) = Err ZeroDivisionError) /\ (0 <= s -> exists y, en_mul x (PyInt s) = Ok y).
Proof.
  intros K Hx Hg Hs. destruct (keypair_good n sk K) as [G <-]. destruct (encode_key_int sk G s Hs) as (f & Ef & Mf & _). pose proof (max_int_bounds sk G) as MB. pose proof (g_n6 sk G).
  unfold en_mul. rewrite Hx, Ef. cbn [mbind res_bind]. rewrite encode_int in Ef by lia. cbn [int_exp] in Ef. rewrite Z.pow_0_r, !Z.mul_1_r, (proj2 (Z.leb_le _ _)) in Ef by lia.
  injection Ef as <-. cbn [fp_enc fp_exp].
  assert (R : 0 <= s mod sk_n sk < sk_n sk) by (apply Z.mod_pos_bound; lia).
  rewrite (proj2 (Z.ltb_ge (s mod sk_n sk) 0)), (proj2 (Z.leb_gt (sk_n sk) (s mod sk_n sk))) by lia. cbn [orb]. split; intros S0.
  - replace (s mod sk_n sk) with (s + sk_n sk); [|apply (Z.mod_unique s (sk_n sk) (-1)); lia].
    rewrite (proj2 (Z.leb_le _ _)) by lia. unfold pk_nsquare. rewrite invert_err; [reflexivity|nia|].
    intros Q. apply Hg. apply gcd_rel. apply rel_prime_sym. eapply (rel_prime_div (sk_n sk * sk_n sk)); [now apply rel_prime_sym|]. exists (sk_n sk). ring.
  - rewrite Z.mod_small by lia. rewrite (proj2 (Z.leb_gt _ _)) by lia. cbn [mbind res_bind]. eauto.
Qed.
Print Assumptions C14_no_inverse.
Example C14_no_inverse_ex : exists sk, keypair 11413 sk /\ Z.gcd 101 11413 <> 1 /\ Z.abs (-1) <= pk_max_int 11413.
Proof. exists sk_small. split; [exact sk_small_key|]. split; vm_compute; discriminate. Qed.

Theorem C14_obfuscate n sk x fresh : keypair n sk -> en_pk x = n -> Z.gcd (en_ct x) n = 1 -> Z.gcd fresh n = 1 ->
  sk_raw_decrypt sk (en_ct (en_obfuscate x fresh)) = sk_raw_decrypt sk (en_ct x)
  /\ Z.gcd (en_ct (en_obfuscate x fresh)) n = 1 /\ sk_decrypt sk (CEnc (en_obfuscate x fresh)) = sk_decrypt sk (CEnc x).
Proof.
  intros K Hx Hc Hf. destruct (keypair_good n sk K) as [G <-].
  assert (M : en_mant sk x (sk_raw_decrypt sk (en_ct x))).
  { repeat split; [exact Hx|exact Hc|]. symmetry. apply Z.mod_small. apply (raw_decrypt_range sk G). }
  destruct (en_obfuscate_ok sk G x _ fresh M Hf) as (_ & A & B).
  rewrite Z.mod_small in B by apply (raw_decrypt_range sk G).
  split; [exact B|]. split; [exact A|]. unfold sk_decrypt. rewrite B. reflexivity.
Qed.
Print Assumptions C14_obfuscate.

(** 700 * 16 and -9 under n = 11413. *)
Example C14_ex : match mk_privkey 11413 101 113, pk_raw_encrypt 11413 700 None 5, pk_raw_encrypt 11413 11404 None 8 with
  | Ok sk, Ok c, Ok d =>
      (sk_raw_decrypt sk (c * d mod pk_nsquare 11413) =? 691)
      && (sk_raw_decrypt sk (powmod c 16 (pk_nsquare 11413)) =? 11200)
      && match invert d (pk_nsquare 11413) with Ok e => sk_raw_decrypt sk e =? 9 | _ => false end
      && (Z.gcd c 11413 =? 1) && (Z.gcd d 11413 =? 1)
  | _, _, _ => false end = true.
Proof. vm_compute. reflexivity. Qed.

(** C15. Encrypting holds the encoded value. *)
Theorem C15_encrypt n sk v prec fresh f w : keypair n sk -> Z.gcd fresh n = 1 ->
  fp_encode v (Some (n, pk_max_int n)) prec None = Ok f -> fp_holds f w ->
  exists x, pk_encrypt n v prec None fresh = Ok x /\ en_exp x = fp_exp f /\ en_value sk x w.
Proof.
  intros K Hr Hf (m & Hm & Ew). destruct (keypair_good n sk K) as [G <-].
  destruct (pk_encrypt_ok sk G v prec fresh f m Hf Hm Hr) as (x & Hx & Mx & Ex).
  exists x. split; [exact Hx|]. split; [exact Ex|]. exists m. rewrite Ex.
  destruct (fp_encode_mant sk G _ _ _ _ Hf) as (m' & _ & _ & Emx & _).
  destruct Hm as (_ & _ & Hm & _). rewrite Emx in Hm. auto.
Qed.
Print Assumptions C15_encrypt.

(** The same with a random value given by the caller (0 counts as 1). *)
Theorem C15_encrypt_given n sk v prec r fresh f w : keypair n sk -> Z.gcd r n = 1 ->
  fp_encode v (Some (n, pk_max_int n)) prec None = Ok f -> fp_holds f w ->
  exists x, pk_encrypt n v prec (Some r) fresh = Ok x /\ en_exp x = fp_exp f /\ en_value sk x w.
Proof.
  intros K Hr Hf (m & Hm & Ew). destruct (keypair_good n sk K) as [G <-].
  assert (R0 : r <> 0). { intros ->. rewrite Z.gcd_0_l in Hr. pose proof (g_n6 sk G). lia. }
  destruct (pk_encrypt_rv_ok sk G v prec r fresh f m Hf Hm R0 Hr) as (x & Hx & Mx & Ex).
  exists x. split; [exact Hx|]. split; [exact Ex|]. exists m. rewrite Ex.
  destruct (fp_encode_mant sk G _ _ _ _ Hf) as (m' & _ & _ & Emx & _).
  destruct Hm as (_ & _ & Hm & _). rewrite Emx in Hm. auto.
Qed.
Print Assumptions C15_encrypt_given.

(** Decrypting a held value returns it: exactly as an int when the exponent is not positive, otherwise as the
    nearest double (OverflowError if the mantissa is not convertible to a double). *)
Theorem C15_decrypt n sk x q : keypair n sk -> en_value sk x q ->
  (en_exp x <= 0 -> exists z, sk_decrypt sk (CEnc x) = Ok (PyInt z) /\ zq z = q) /\
  (0 < en_exp x -> sk_decrypt sk (CEnc x) =
     if qleb (zq float_limit) (qabs q * p2 (4 * en_exp x)) then Err OverflowError else Ok (PyFloat (fround q))).
Proof. intros K. destruct (keypair_good n sk K) as [G _]. exact (decrypt_value sk x q G). Qed.
Print Assumptions C15_decrypt.

Theorem C15_add n sk x y a b : keypair n sk -> en_value sk x a -> en_value sk y b ->
  16 ^ Z.abs (en_exp x - en_exp y) <= pk_max_int n ->
  (qabs (a + b) * p2 (4 * Z.max (en_exp x) (en_exp y)) <= zq (pk_max_int n))%Qc ->
  exists r, cell_add (CEnc x) (CEnc y) = Ok (CEnc r) /\ en_exp r = Z.max (en_exp x) (en_exp y)
            /\ en_value sk r (a + b)%Qc.
Proof.
  intros K. destruct (keypair_good n sk K) as [G <-]. intros Hx Hy Hf Hb.
  destruct (en_add_value sk G x y a b Hx Hy Hf Hb) as (r & Hr & R). exists r. split; [|exact R].
  cbn [cell_add]. now rewrite Hr.
Qed.
Print Assumptions C15_add.

Theorem C15_sub n sk x y a b : keypair n sk -> en_value sk x a -> en_value sk y b ->
  16 ^ Z.abs (en_exp x - en_exp y) <= pk_max_int n ->
  (qabs (a - b) * p2 (4 * Z.max (en_exp x) (en_exp y)) <= zq (pk_max_int n))%Qc ->
  exists r, cell_sub (CEnc x) (CEnc y) = Ok (CEnc r) /\ en_exp r = Z.max (en_exp x) (en_exp y)
            /\ en_value sk r (a - b)%Qc.
Proof. intros K. destruct (keypair_good n sk K) as [G <-]. exact (en_sub_value sk G x y a b). Qed.
Print Assumptions C15_sub.

(** Adding a plain number on either side: the number is encoded at an exponent at least that of x. *)
Theorem C15_add_scalar n sk x a s f w : keypair n sk -> en_value sk x a ->
  fp_encode s (Some (n, pk_max_int n)) None (Some (en_exp x)) = Ok f -> fp_holds f w ->
  16 ^ (fp_exp f - en_exp x) <= pk_max_int n ->
  (qabs (a + w) * p2 (4 * fp_exp f) <= zq (pk_max_int n))%Qc ->
  exists r, cell_add (CEnc x) (CNum s) = Ok (CEnc r) /\ cell_add (CNum s) (CEnc x) = Ok (CEnc r)
            /\ en_exp r = fp_exp f /\ en_value sk r (a + w)%Qc.
Proof.
  intros K. destruct (keypair_good n sk K) as [G <-]. intros Hx Hf Hw Hfac Hb.
  destruct (en_add_scalar_value sk G x a s f w Hx Hf Hw Hfac Hb) as (r & Hr & R). exists r.
  cbn [cell_add]. rewrite Hr. cbn [mbind res_bind]. auto.
Qed.
Print Assumptions C15_add_scalar.

Theorem C15_scalar_sub n sk x a s f w : keypair n sk -> en_value sk x a ->
  fp_encode s (Some (n, pk_max_int n)) None (Some (en_exp x)) = Ok f -> fp_holds f w ->
  16 ^ (fp_exp f - en_exp x) <= pk_max_int n ->
  (qabs (w - a) * p2 (4 * fp_exp f) <= zq (pk_max_int n))%Qc ->
  exists r, cell_sub (CNum s) (CEnc x) = Ok (CEnc r) /\ en_exp r = fp_exp f /\ en_value sk r (w - a)%Qc.
Proof. intros K. destruct (keypair_good n sk K) as [G <-]. exact (en_rsub_value sk G x a s f w). Qed.
Print Assumptions C15_scalar_sub.

Theorem C15_mul n sk x a s f w : keypair n sk -> en_value sk x a ->
  fp_encode s (Some (n, pk_max_int n)) None None = Ok f -> fp_holds f w ->
  (qabs (a * w) * p2 (4 * (en_exp x + fp_exp f)) <= zq (pk_max_int n))%Qc ->
  exists r, en_mul x s = Ok r /\ en_exp r = en_exp x + fp_exp f /\ en_value sk r (a * w)%Qc.
Proof. intros K. destruct (keypair_good n sk K) as [G <-]. exact (en_mul_value sk G x a s f w). Qed.
Print Assumptions C15_mul.

Theorem C15_neg n sk x a : keypair n sk -> en_value sk x a ->
  exists r, cell_neg (CEnc x) = Ok (CEnc r) /\ en_exp r = en_exp x /\ en_value sk r (- a)%Qc.
Proof.
  intros K. destruct (keypair_good n sk K) as [G <-]. intros Hx.
  destruct (en_neg_value sk G x a Hx) as (r & Hr & R). exists r. cbn [cell_neg]. now rewrite Hr.
Qed.
Print Assumptions C15_neg.

(** Raising the exponent does not change the value. *)
Theorem C15_increase n sk x a e : keypair n sk -> en_value sk x a -> en_exp x <= e ->
  16 ^ (e - en_exp x) <= pk_max_int n -> (qabs a * p2 (4 * e) <= zq (pk_max_int n))%Qc ->
  exists r, en_increase x e = Ok r /\ en_exp r = e /\ en_value sk r a.
Proof.
  intros K. destruct (keypair_good n sk K) as [G <-]. intros (M & HM & Hx & Ea) He Hf Hb.
  destruct (en_increase_ok sk G x M e Hx He Hf) as (r & Hr & Mr & Er).
  exists r. split; [exact Hr|]. split; [exact Er|]. rewrite (zq_scale M _ e) in Ea by lia.
  eapply en_value_intro; [|exact Mr|now rewrite Er]. rewrite Ea in Hb. now apply scale_bound in Hb.
Qed.
Print Assumptions C15_increase.

(** n = 1999 * 2003: 5 at exponent 0 and -3/16 at exponent 1, both signs and both exponent orders. *)
Definition ex_sk : privkey := Eval vm_compute in match mk_privkey (1999 * 2003) 1999 2003 with Ok k => k | Err _ => SK 0 0 0 0 0 0 end.
Example C15_ex_key : keypair (1999 * 2003) ex_sk.
Proof.
  exists 1999, 2003. split; [apply prime_check_ok; vm_compute; reflexivity|].
  split; [apply prime_check_ok; vm_compute; reflexivity|vm_compute; reflexivity].
Qed.
Example C15_ex : match pk_encrypt (1999 * 2003) (PyInt 5) None None 77,
                       pk_encrypt (1999 * 2003) (PyFloat (Q2Qc (-3 # 16))) (Some 1) None 78 with
  | Ok x, Ok y =>
      (en_exp x =? 0) && (en_exp y =? 1) &&
      match cell_add (CEnc x) (CEnc y), cell_sub (CEnc x) (CEnc y), cell_sub (CEnc y) (CEnc x),
            cell_sub (CNum (PyInt 2)) (CEnc y), cell_add (CEnc y) (CNum (PyInt 2)), en_mul y (PyInt (-4)),
            en_increase x 2 with
      | Ok r1, Ok r2, Ok r3, Ok r4, Ok r5, Ok r6, Ok r7 =>
          forallb (fun '(r, q) => match sk_decrypt ex_sk r with Ok v => qeqb (num v) (Q2Qc q) | _ => false end)
            [(r1, 77 # 16); (r2, 83 # 16); (r3, -83 # 16); (r4, 35 # 16); (r5, 29 # 16); (CEnc r6, 3 # 4); (CEnc r7, 5 # 1)]
      | _, _, _, _, _, _, _ => false end
  | _, _ => false end = true
  /\ 16 ^ 2 <= pk_max_int (1999 * 2003).
Proof. vm_compute. split; [reflexivity|discriminate]. Qed.

(** C16. The sum of two in-range numbers with equal exponents is exact, or decryption raises OverflowError. *)
Theorem C16_two_terms n sk x y a b : keypair n sk -> en_value sk x a -> en_value sk y b -> en_exp x = en_exp y ->
  exists r, cell_add (CEnc x) (CEnc y) = Ok (CEnc r) /\ en_exp r = en_exp x /\
    (((qabs (a + b) * p2 (4 * en_exp x) <= zq (pk_max_int n))%Qc /\ en_value sk r (a + b)%Qc) \/
     ((zq (pk_max_int n) < qabs (a + b) * p2 (4 * en_exp x))%Qc /\ sk_decrypt sk (CEnc r) = Err OverflowError)).
Proof.
  intros K. destruct (keypair_good n sk K) as [G <-]. intros Hx Hy He.
  destruct (two_term_sum sk G x y a b Hx Hy He) as (r & Hr & R). exists r. cbn [cell_add]. now rewrite Hr.
Qed.
Print Assumptions C16_two_terms.

Definition ex_max : enum :=
  Eval vm_compute in match pk_encrypt 11413 (PyInt 3803) None None 5 with Ok x => x | Err _ => EN 0 0 0 end.
Theorem C16_three_terms_refuted : exists n sk x a r s, keypair n sk /\ en_value sk x (zq a) /\
  pk_encrypt n (PyInt a) None None 5 = Ok x /\
  cell_add (CEnc x) (CEnc x) = Ok r /\ cell_add r (CEnc x) = Ok s /\
  sk_decrypt sk s = Ok (PyInt (-4)) /\ 3 * a <> -4.
Proof.
  exists 11413, sk_small, ex_max, 3803. do 2 eexists.
  assert (Ex : pk_encrypt 11413 (PyInt 3803) None None 5 = Ok ex_max) by (vm_compute; reflexivity).
  split; [exact sk_small_key|]. split.
  { assert (F : exists f, fp_encode (PyInt 3803) (Some (11413, pk_max_int 11413)) None None = Ok f /\ fp_holds f (zq 3803)).
    { eexists. split; [vm_compute; reflexivity|]. exists 3803. split; [vm_compute; repeat split; discriminate|].
      apply qeqb_true. vm_compute. reflexivity. }
    destruct F as (f & Hf & Hh).
    destruct (C15_encrypt 11413 sk_small (PyInt 3803) None 5 f (zq 3803) sk_small_key eq_refl Hf Hh) as (x' & Hx' & _ & V).
    rewrite Ex in Hx'. now injection Hx' as <-. }
  split; [exact Ex|]. split; [vm_compute; reflexivity|]. split; [vm_compute; reflexivity|].
  split; [vm_compute; reflexivity|lia].
Qed.
Print Assumptions C16_three_terms_refuted.

Example C16_ex : match pk_encrypt 11413 (PyInt 3000) None None 7, mk_privkey 11413 101 113 with
  | Ok x, Ok sk => match cell_add (CEnc x) (CEnc x) with Ok r => sk_decrypt sk r | Err e => Err e end
  | _, _ => Err TypeError end = Err OverflowError.
Proof. vm_compute. reflexivity. Qed.

(** C17. Sums and differences of up to 2^200 values of magnitude at most 1 under a key of at least 1000 bits. *)
Theorem C17_gradient_sums n sk e : keypair n sk -> 2 ^ 1000 <= n ->
  gleaves_ok n e -> 1 <= gleaves e <= 2 ^ 200 ->
  exists x, geval n e = Ok (CEnc x) /\ en_value sk x (gsum n e) /\
    exists v, sk_decrypt sk (CEnc x) = Ok v /\
      (en_exp x <= 0 -> num v = gsum n e) /\ (0 < en_exp x -> num v = fround (gsum n e)).
Proof. intros K. destruct (keypair_good n sk K) as [G <-]. intros Hn. exact (tree_sum sk G Hn e). Qed.
Print Assumptions C17_gradient_sums.

(** Keys of that size exist, and a tree such as (0 + a) - (b + c) meets the hypotheses. *)
Example C17_ex : exists n sk, keypair n sk /\ 2 ^ 1000 <= n /\
  let e := GSub (GAdd GZero (GLeaf (Q2Qc (1 # 3)) 1)) (GAdd (GLeaf (zq 0) (n - 1)) (GLeaf (zq (-1)) 1)) in
  gleaves_ok n e /\ gleaves e = 3.
Proof.
  destruct (prime_above_Z (2 ^ 1000)) as (p & Hp & Pp). destruct (prime_above_Z p) as (q & Hq & Pq).
  destruct (mk_privkey_ok p q Pp Pq ltac:(lia)) as (sk & Hsk & _).
  exists (p * q), sk. split; [exists p, q; auto|]. split; [assert (0 < 2 ^ 1000) by reflexivity; nia|].
  cbv zeta. cbn [gleaves_ok gleaves]. split; [|reflexivity].
  split; [split; [exact I|split; [discriminate|apply Z.gcd_1_l]]|]. split; split; try discriminate.
  - replace (p * q) with (1 * (p * q - 1) + 1) at 2 by lia. rewrite Z.add_comm, Z.gcd_add_mult_diag_r.
    apply Z.gcd_1_r.
  - apply Z.gcd_1_l.
Qed.

(** C18. *)
Theorem C18_not_encrypted sk v : sk_decrypt sk (CNum v) = Err TypeError.
Proof. reflexivity. Qed.
Print Assumptions C18_not_encrypted.

Theorem C18_foreign_key sk x : en_pk x <> sk_n sk -> sk_decrypt sk (CEnc x) = Err ValueError.
Proof. intros H. unfold sk_decrypt. rewrite (proj2 (Z.eqb_neq _ _)) by congruence. reflexivity. Qed.
Print Assumptions C18_foreign_key.

Theorem C18_mixed_keys x y : en_pk x <> en_pk y ->
  cell_add (CEnc x) (CEnc y) = Err ValueError
  /\ (forall d, cell_sub (CEnc x) (CEnc y) <> Ok d).
Proof.
  intros H. cbn [cell_add]. unfold en_add_enc at 1. rewrite (proj2 (Z.eqb_neq _ _) H). split; [reflexivity|].
  intros d. unfold cell_sub. cbn [cell_neg].
  destruct (en_mul y (PyInt (-1))) as [y'|e] eqn:E; [|discriminate]. cbn [mbind res_bind cell_add].
  assert (P : en_pk y' = en_pk y).
  { unfold en_mul in E. destruct (fp_encode _ _ _ _); [|discriminate]. cbn [mbind res_bind] in E.
    repeat case_match; try discriminate; cbn [mbind res_bind] in E;
      repeat match type of E with context [invert ?a ?b] => destruct (invert a b) end; try discriminate;
      now injection E as <-. }
  unfold en_add_enc. rewrite P, (proj2 (Z.eqb_neq _ _) H). discriminate.
Qed.
Print Assumptions C18_mixed_keys.

Example C18_ex : match pk_encrypt 11413 (PyInt 1) None None 5, pk_encrypt 4003997 (PyInt 1) None None 5 with
  | Ok x, Ok y => en_pk x <> en_pk y /\ sk_decrypt ex_sk (CEnc x) = Err ValueError
                  /\ cell_add (CEnc x) (CEnc y) = Err ValueError /\ cell_sub (CEnc y) (CEnc x) = Err ValueError
                  /\ sk_decrypt ex_sk (CEnc y) = Ok (PyInt 1)
  | _, _ => False end.
Proof. vm_compute. repeat split; discriminate. Qed.
