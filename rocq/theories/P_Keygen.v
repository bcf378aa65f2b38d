(** C80. *)
From Verif Require Import KeygenProofs EncNumProofs.
Local Open Scope Z_scope.

(** A key comes from the first attempt whose product has the demanded number of bits; nothing is raised. *)
Theorem C80_first next_prime len draws n sk : 2 <= len -> next_prime_ok (len / 2) next_prime -> draws_ok (len / 2) draws ->
  (generate_keypair next_prime len draws = Ok (n, sk) <->
   exists pre l post p q, draws = pre ++ l ++ post /\ in_vain len pre /\ attempt (len / 2) l p q /\ has_bits len (p * q) /\ n = p * q /\ mk_privkey n p q = Ok sk).
Proof.
  intros L NP D. unfold generate_keypair. split.
  - destruct (draw_loop next_prime len None draws) as [[p q]|] eqn:E; [|discriminate]. cbn [mbind res_bind]. destruct (mk_privkey (p * q) p q) as [sk'|] eqn:K; [|discriminate]. intros [= <- <-].
    destruct (loop_sound next_prime len L NP draws D None p q E) as [(pre & l & post & H1 & H2 & H3 & H4)|(? & [=] & _)]. exists pre, l, post, p, q. auto 7.
  - intros (pre & l & post & p & q & -> & V & A & B & -> & K). rewrite (loop_complete next_prime len L NP pre l post p q D V A B). cbn [mbind res_bind]. now rewrite K.
Qed.
Print Assumptions C80_first.
Theorem C80_outcomes next_prime len draws : 2 <= len -> next_prime_ok (len / 2) next_prime -> draws_ok (len / 2) draws ->
  (exists n sk, generate_keypair next_prime len draws = Ok (n, sk)) \/ generate_keypair next_prime len draws = Err OutOfFuel.
Proof.
  intros L NP D. unfold generate_keypair. destruct (loop_results next_prime len draws None) as [[[p q] E]|E]; rewrite E; [left|right; reflexivity]. cbn [mbind res_bind].
  destruct (loop_sound next_prime len L NP draws D None p q E) as [(pre & l & post & -> & H2 & H3 & H4)|(? & [=] & _)].
  apply draws_app in D as [_ D]. apply draws_app in D as [D _]. destruct (attempt_pos len L l p q D H3) as [[P1 _] [P2 _]]. destruct H3 as (_ & _ & _ & _ & _ & _ & _ & N).
  destruct (mk_privkey_ok p q P1 P2 N) as (sk & -> & _). eauto.
Qed.
Print Assumptions C80_outcomes.
(** Every key that is returned is a key in the sense of the other theorems, has exactly the demanded size, and both factors are large. *)
Theorem C80_key next_prime len draws n sk : 2 <= len -> next_prime_ok (len / 2) next_prime -> draws_ok (len / 2) draws -> generate_keypair next_prime len draws = Ok (n, sk) ->
  keypair n sk /\ has_bits len n /\ (exists p q, prime p /\ prime q /\ p <> q /\ n = p * q /\ 2 ^ (len / 2 - 1) < p /\ 2 ^ (len / 2 - 1) < q) /\ (6 <= len -> 2 ^ (len - 3) <= pk_max_int n).
Proof.
  intros L NP D G. apply (C80_first next_prime len draws n sk L NP D) in G as (pre & l & post & p & q & -> & V & A & B & -> & K).
  apply draws_app in D as [_ D]. apply draws_app in D as [D _]. destruct (attempt_pos len L l p q D A) as [[P1 B1] [P2 B2]]. destruct A as (_ & _ & _ & _ & _ & _ & _ & N).
  split; [exists p, q; auto|]. split; [exact B|]. split; [exists p, q; auto 7|]. intros L6. destruct B as [B _]. unfold pk_max_int.
  replace (2 ^ (len - 1)) with (4 * 2 ^ (len - 3)) in B by (change 4 with (2 ^ 2); rewrite <- Z.pow_add_r by lia; f_equal; lia).
  assert (8 <= 2 ^ (len - 3)) by (change 8 with (2 ^ 3); apply Z.pow_le_mono_r; lia).
  enough (2 ^ (len - 3) + 1 <= p * q / 3) by lia. apply Z.div_le_lower_bound; lia.
Qed.
Print Assumptions C80_key.
(** Every integer up to 2^(len-3) survives encryption and decryption with a generated key. *)
Theorem C80_roundtrip next_prime len draws n sk v fresh : 6 <= len -> next_prime_ok (len / 2) next_prime -> draws_ok (len / 2) draws -> generate_keypair next_prime len draws = Ok (n, sk) ->
  Z.abs v <= 2 ^ (len - 3) -> Z.gcd fresh n = 1 -> exists x, pk_encrypt n (PyInt v) None None fresh = Ok x /\ sk_decrypt sk (CEnc x) = Ok (PyInt v).
Proof.
  intros L NP D G V F. destruct (C80_key next_prime len draws n sk ltac:(lia) NP D G) as (K & _ & _ & M). specialize (M L). destruct (keypair_good n sk K) as [GS <-].
  destruct (encode_key_int sk GS v ltac:(lia)) as (f & Ef & Mf & Xf). destruct (pk_encrypt_ok sk GS (PyInt v) None fresh f v Ef Mf F) as (x & Hx & Mx & Ex). exists x. split; [exact Hx|].
  rewrite Xf in Ex. assert (EV : en_value sk x (zq v)). { exists v. split; [lia|]. split; [exact Mx|]. rewrite Ex. change (- (4 * 0)) with 0. rewrite p2_0. ring. }
  destruct (proj1 (decrypt_value sk x (zq v) GS EV) ltac:(lia)) as (z & Hz & Ez). apply zq_inj in Ez. now subst z.
Qed.
Print Assumptions C80_roundtrip.
(** Odd lengths: a key needs a draw above the last prime of half the length. *)
Theorem C80_odd next_prime k draws n sk : 1 <= k -> next_prime_ok k next_prime -> draws_ok k draws -> generate_keypair next_prime (2 * k + 1) draws = Ok (n, sk) ->
  exists r, r ∈ draws /\ forall y, prime y -> with_top k r < y -> 2 ^ k < y.
Proof.
  intros K NP D G. assert (E : (2 * k + 1) / 2 = k) by (symmetry; apply (Z.div_unique _ _ _ 1); lia).
  apply C80_first in G as (pre & l & post & p & q & -> & V & A & B & -> & _); [|lia|now rewrite E|now rewrite E]. rewrite E in A.
  destruct A as (r & same & r' & -> & A1 & A2 & A3 & N). destruct B as [B _]. replace (2 * k + 1 - 1) with (2 * k) in B by lia.
  assert (P : 2 ^ (2 * k) = 2 ^ k * 2 ^ k) by (rewrite <- Z.pow_add_r by lia; f_equal; lia). rewrite P in B. clear P. pose proof (Z.pow_pos_nonneg 2 k ltac:(lia) ltac:(lia)).
  assert (X : 2 ^ k < p \/ 2 ^ k < q). { destruct (Z.lt_ge_cases (2 ^ k) p); [auto|]. destruct (Z.lt_ge_cases (2 ^ k) q); [auto|]. assert (0 <= p /\ 0 <= q) by (destruct A1 as [P1 _], A3 as [P2 _]; pose proof (prime_ge_2 _ P1); pose proof (prime_ge_2 _ P2); lia). assert (p = 2 ^ k) by nia. assert (q = 2 ^ k) by nia. congruence. }
  destruct A1 as (P1 & L1 & M1), A3 as (P2 & L2 & M2). destruct X as [X|X].
  - exists r. split; [rewrite !elem_of_app, elem_of_cons; auto|]. intros y Y1 Y2. specialize (M1 y Y1 Y2). lia.
  - exists r'. split; [rewrite !elem_of_app, elem_of_cons, elem_of_app; right; left; right; right; left|]. intros y Y1 Y2. specialize (M2 y Y1 Y2). lia.
Qed.
Print Assumptions C80_odd.
(** Three short lengths for which no key is ever found. *)
Lemma small_primes x : prime x -> 1 < x /\ (x <> 4).
Proof. intros P. split; [destruct P; lia|]. intros ->. destruct (prime_divisors 4 P 2) as [|[|[|]]]; [exists 2|..]; lia. Qed.
Theorem C80_never next_prime len draws : len ∈ [2; 3; 5] -> next_prime_ok (len / 2) next_prime -> draws_ok (len / 2) draws -> generate_keypair next_prime len draws = Err OutOfFuel.
Proof.
  intros I NP D.
  assert (L : 2 <= len) by (repeat (apply elem_of_cons in I as [->|I]; [lia|]); now apply elem_of_nil in I).
  destruct (C80_outcomes next_prime len draws L NP D) as [(n & sk & G)|G]; [exfalso|exact G].
  apply (C80_first next_prime len draws n sk L NP D) in G as (pre & l & post & p & q & -> & V & (r & same & r' & -> & A1 & _ & A3 & N) & B & -> & _).
  assert (R : 0 <= r < 2 ^ (len / 2)) by (apply D; rewrite !elem_of_app, elem_of_cons; auto).
  assert (R' : 0 <= r' < 2 ^ (len / 2)) by (apply D; rewrite !elem_of_app, elem_of_cons, elem_of_app; right; left; right; right; left).
  assert (P2 : prime 2) by apply prime_2. assert (P3 : prime 3) by apply prime_3. assert (P5 : prime 5) by (apply prime_check_ok; vm_compute; reflexivity).
  pose proof (with_top_range (len / 2) r) as W. pose proof (with_top_range (len / 2) r') as W'. destruct A1 as (Q1 & L1 & M1), A3 as (Q2 & L2 & M2). pose proof (small_primes p Q1). pose proof (small_primes q Q2).
  unfold has_bits in B. apply elem_of_cons in I as [->|I]; [|apply elem_of_cons in I as [->|I]; [|apply elem_of_cons in I as [->|I]; [|now apply elem_of_nil in I]]].
  - change (2 / 2) with 1 in *. change (2 ^ 1) with 2 in *. change (2 ^ (1 - 1)) with 1 in *. specialize (W ltac:(lia) R). specialize (W' ltac:(lia) R'). specialize (M1 2 P2 ltac:(lia)). specialize (M2 2 P2 ltac:(lia)). lia.
  - change (3 / 2) with 1 in *. change (2 ^ 1) with 2 in *. change (2 ^ (1 - 1)) with 1 in *. specialize (W ltac:(lia) R). specialize (W' ltac:(lia) R'). specialize (M1 2 P2 ltac:(lia)). specialize (M2 2 P2 ltac:(lia)). lia.
  - change (5 / 2) with 2 in *. change (2 ^ 2) with 4 in *. change (2 ^ (2 - 1)) with 2 in *. change (2 ^ (5 - 1)) with 16 in *. change (2 ^ 5) with 32 in *. specialize (W ltac:(lia) R). specialize (W' ltac:(lia) R'). specialize (M1 5 P5 ltac:(lia)). specialize (M2 5 P5 ltac:(lia)).
    assert (p = 3 \/ p = 5) by lia. assert (q = 3 \/ q = 5) by lia. lia.
Qed.
Print Assumptions C80_never.
Theorem C80_ends_refuted : exists len next_prime, 2 <= len /\ next_prime_ok (len / 2) next_prime /\ forall draws, draws_ok (len / 2) draws -> generate_keypair next_prime len draws = Err OutOfFuel.
Proof.
  set (np := fun b => if b <? 3 then 3 else 5).
  assert (OK : next_prime_ok 2 np).
  { intros b R. change (2 ^ (2 - 1)) with 2 in R. change (2 ^ 2) with 4 in R. unfold np. destruct (Z.ltb_spec b 3).
    - split; [apply prime_3|]. split; [lia|]. intros y _ L. lia.
    - split; [apply prime_check_ok; vm_compute; reflexivity|]. split; [lia|]. intros y P L. pose proof (small_primes y P). lia. }
  exists 5, np. split; [lia|]. split; [exact OK|]. intros draws D. apply C80_never; [right; right; left|exact OK|exact D].
Qed.
Print Assumptions C80_ends_refuted.

(** Examples. *)
Definition kex_next (b : Z) : Z := if b <? 17 then 17 else if b <? 19 then 19 else if b <? 23 then 23 else if b <? 29 then 29 else if b <? 31 then 31 else 37.
Lemma not_prime_divides d e x : 1 < d -> 1 < e -> x = d * e -> ~ prime x.
Proof. intros H H' -> P. destruct (prime_divisors (d * e) P d) as [|[|[|]]]; [exists e|..]; nia. Qed.
Lemma kex_primes y : prime y -> 16 < y < 37 -> y = 17 \/ y = 19 \/ y = 23 \/ y = 29 \/ y = 31.
Proof.
  intros P R.
  assert (N : forall d, 1 < d -> forall e, 1 < e -> y <> d * e) by (intros d D e E F; exact (not_prime_divides d e y D E F P)).
  pose proof (N 2 ltac:(lia)) as N2. pose proof (N 3 ltac:(lia)) as N3. pose proof (N 5 ltac:(lia)) as N5.
  pose proof (N2 9). pose proof (N2 10). pose proof (N2 11). pose proof (N2 12). pose proof (N2 13). pose proof (N2 14). pose proof (N2 15). pose proof (N2 16). pose proof (N2 17). pose proof (N2 18).
  pose proof (N3 7). pose proof (N3 9). pose proof (N3 11). pose proof (N5 5). pose proof (N5 7). lia.
Qed.
Lemma kex_next_ok : next_prime_ok 5 kex_next.
Proof.
  intros b R. change (2 ^ (5 - 1)) with 16 in R. change (2 ^ 5) with 32 in R. unfold kex_next.
  assert (prime 17 /\ prime 19 /\ prime 23 /\ prime 29 /\ prime 31 /\ prime 37) as (? & ? & ? & ? & ? & ?) by (repeat match goal with |- _ /\ _ => split end; apply prime_check_ok; vm_compute; reflexivity).
  repeat match goal with |- context [?a <? ?c] => destruct (Z.ltb_spec a c) end; (split; [assumption|]); (split; [lia|]); intros y Py L; destruct (Z.lt_ge_cases y 37); try lia; pose proof (kex_primes y Py ltac:(lia)); lia.
Qed.
(** Ten bits: 17 * 19 is too small, then 23 is drawn twice. Eleven bits: a draw of 31 leads to 37. *)
Example C80_ex : next_prime_ok (10 / 2) kex_next /\ draws_ok (10 / 2) [0; 1; 22; 6; 25; 3] /\
  (exists sk, generate_keypair kex_next 10 [0; 1; 22; 6; 25; 3] = Ok (667, sk)) /\ generate_keypair kex_next 10 [0; 1; 22; 6] = Err OutOfFuel.
Proof.
  split; [exact kex_next_ok|]. split; [|split; [eexists; vm_compute; reflexivity|vm_compute; reflexivity]].
  intros r I. change (2 ^ (10 / 2)) with 32. repeat (apply elem_of_cons in I as [->|I]; [lia|]). now apply elem_of_nil in I.
Qed.
Example C80_odd_ex : next_prime_ok 5 kex_next /\ draws_ok 5 [31; 25] /\ exists sk, generate_keypair kex_next (2 * 5 + 1) [31; 25] = Ok (1073, sk).
Proof.
  split; [exact kex_next_ok|]. split; [|eexists; vm_compute; reflexivity].
  intros r I. change (2 ^ 5) with 32. repeat (apply elem_of_cons in I as [->|I]; [lia|]). now apply elem_of_nil in I.
Qed.
(** -100 under the key of ten bits. *)
Example C80_roundtrip_ex : Z.abs (-100) <= 2 ^ (10 - 3) /\ Z.gcd 2 667 = 1 /\
  match generate_keypair kex_next 10 [0; 1; 22; 6; 25; 3], pk_encrypt 667 (PyInt (-100)) None None 2 with Ok (_, sk), Ok x => sk_decrypt sk (CEnc x) = Ok (PyInt (-100)) | _, _ => False end.
Proof. split; [vm_compute; discriminate|]. split; [reflexivity|]. vm_compute. reflexivity. Qed.
