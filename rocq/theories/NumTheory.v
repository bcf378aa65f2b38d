(** Number theory over Z used by the ciphers: Fermat's little theorem and the existence of large primes. *)
From stdpp Require Import list.
From Coq Require Import ZArith Znumtheory Lia Permutation.
Local Open Scope Z_scope.

Definition zprod (l : list Z) : Z := foldr Z.mul 1 l.

Lemma zprod_perm l k : Permutation l k -> zprod l = zprod k.
Proof. unfold zprod. induction 1; cbn in *; lia. Qed.

Definition residues (p : Z) : list Z := map Z.of_nat (seq 1 (Z.to_nat (p - 1))).

Lemma in_residues p k : In k (residues p) <-> 1 <= k < p.
Proof.
  unfold residues. rewrite in_map_iff. split.
  - intros (j & <- & [H1 H2]%in_seq). lia.
  - intros H. exists (Z.to_nat k). split; [lia|]. apply in_seq. lia.
Qed.

Lemma NoDup_residues p : List.NoDup (residues p).
Proof. unfold residues. apply FinFun.Injective_map_NoDup; [intros a b; lia|apply List.seq_NoDup]. Qed.

Lemma NoDup_map_in {A B} (f : A -> B) l :
  List.NoDup l -> (forall x y, In x l -> In y l -> f x = f y -> x = y) -> List.NoDup (map f l).
Proof.
  induction 1 as [|x l Hx Hn IH]; intros Hf; cbn; constructor.
  - rewrite in_map_iff. intros (y & E & Hy). apply Hx.
    rewrite <- (Hf y x); [exact Hy|now right|now left|exact E].
  - apply IH. intros; apply Hf; auto; now right.
Qed.

Lemma zprod_mul_mod p a l : 0 < p ->
  (zprod (map (fun k => a * k mod p) l) - a ^ Z.of_nat (length l) * zprod l) mod p = 0.
Proof.
  intros Hp. apply Z.mod_divide; [lia|]. induction l as [|x l [c IH]].
  - exists 0. cbn. lia.
  - cbn [map zprod foldr length]. change (foldr Z.mul 1) with zprod.
    rewrite Nat2Z.inj_succ, Z.pow_succ_r by lia.
    set (P := zprod (map _ l)) in *. set (Q := zprod l) in *. set (A := a ^ _) in *.
    pose proof (Z.div_mod (a * x) p ltac:(lia)) as D. set (r := a * x mod p) in *. set (d := a * x / p) in *.
    exists (r * c - d * A * Q). replace P with (c * p + A * Q) by lia. replace r with (a * x - p * d) by lia. ring.
Qed.

Lemma zprod_residues_coprime p l : prime p -> (forall x, In x l -> 1 <= x < p) -> rel_prime p (zprod l).
Proof.
  intros Hp. induction l as [|x l IH]; intros H; cbn.
  - apply rel_prime_sym, rel_prime_1.
  - apply rel_prime_mult; [|apply IH; intros; apply H; now right].
    apply rel_prime_sym, rel_prime_le_prime; [exact Hp|]. apply H. now left.
Qed.

Theorem fermat_Z (p a : Z) : prime p -> ~ (p | a) -> (a ^ (p - 1)) mod p = 1.
Proof.
  intros Hp Ha. assert (Hp1 : 1 < p) by (destruct Hp; lia).
  set (l := residues p). set (l' := map (fun k => a * k mod p) l).
  assert (Hra : rel_prime p a) by now apply prime_rel_prime.
  assert (ND : List.NoDup l').
  { apply NoDup_map_in; [apply NoDup_residues|]. intros x y Hx%in_residues Hy%in_residues E.
    assert (D : (p | a * (x - y))).
    { apply Z.mod_divide; [lia|]. rewrite Z.mul_sub_distr_l, Zminus_mod, E, Z.sub_diag. apply Z.mod_0_l. lia. }
    apply Gauss in D; [|exact Hra]. destruct D as [c D].
    assert (c = 0) by nia. lia. }
  assert (PM : Permutation l' l).
  { apply NoDup_Permutation_bis; [exact ND|unfold l'; rewrite map_length; lia|].
    intros y (x & <- & Hx%in_residues)%in_map_iff. apply in_residues.
    pose proof (Z.mod_pos_bound (a * x) p ltac:(lia)).
    assert (a * x mod p <> 0); [|lia]. intros E. apply Z.mod_divide in E; [|lia].
    apply Gauss in E; [|exact Hra]. destruct E as [c E]. assert (0 < c) by nia. nia. }
  pose proof (zprod_mul_mod p a l ltac:(lia)) as H. fold l' in H. rewrite (zprod_perm _ _ PM) in H.
  assert (L : Z.of_nat (length l) = p - 1) by (unfold l, residues; rewrite map_length, seq_length; lia).
  rewrite L in H. apply Z.mod_divide in H; [|lia].
  assert (D : (p | zprod l * (1 - a ^ (p - 1)))) by (destruct H as [c H]; exists c; lia).
  apply Gauss in D; [|apply zprod_residues_coprime; [exact Hp|intros x; apply in_residues]].
  destruct D as [c D]. replace (a ^ (p - 1)) with (1 + (- c) * p) by lia.
  rewrite Z.mod_add by lia. apply Z.mod_small. lia.
Qed.

Lemma prime_divisor (n : Z) : 1 < n -> exists p, prime p /\ (p | n).
Proof.
  intros H. assert (W : forall k m, 1 < m < k -> exists p, prime p /\ (p | m)); [|apply (W (n + 1)); lia].
  intros k. destruct (Z_lt_le_dec k 0) as [|Hk]; [intros; lia|].
  pattern k. apply Z_lt_induction; [|exact Hk]. clear k Hk. intros k IH m Hm.
  destruct (prime_dec m) as [P|N]; [exists m; split; [exact P|reflexivity]|].
  destruct (not_prime_divide m ltac:(lia) N) as (d & Hd & Dd).
  destruct (IH (k - 1) ltac:(lia) d ltac:(lia)) as (p & Pp & Dp).
  exists p. split; [exact Pp|]. now transitivity d.
Qed.

Lemma divide_zprod x l : In x l -> (x | zprod l).
Proof.
  induction l as [|y l IH]; intros []; cbn.
  - subst. apply Z.divide_factor_l.
  - apply Z.divide_mul_r. auto.
Qed.

Lemma zprod_pos l : (forall x, In x l -> 1 <= x) -> 1 <= zprod l.
Proof.
  induction l as [|y l IH]; intros H; cbn; [lia|]. change (foldr Z.mul 1 l) with (zprod l).
  assert (1 <= y) by (apply H; now left). assert (1 <= zprod l) by (apply IH; intros; apply H; now right). nia.
Qed.

(** There are primes above every bound. *)
Lemma prime_above_Z (N : Z) : exists p, N < p /\ prime p.
Proof.
  set (M := zprod (residues (N + 1))).
  assert (HM : 1 <= M) by (apply zprod_pos; intros x Hx%in_residues; lia).
  destruct (prime_divisor (M + 1) ltac:(lia)) as (p & Pp & Dp). exists p. split; [|exact Pp].
  destruct (Z_lt_le_dec N p) as [|Hle]; [assumption|]. exfalso.
  assert (Hp1 : 1 < p) by (destruct Pp; lia).
  assert (D : (p | M)) by (apply divide_zprod, in_residues; lia).
  assert (D1 : (p | 1)) by (replace 1 with (M + 1 - M) by lia; now apply Z.divide_sub_r).
  apply Z.divide_1_r_nonneg in D1; lia.
Qed.
