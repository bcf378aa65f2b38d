(** Proofs about key generation. *)
From Verif Require Export KeygenSpec PaillierProofs.
Local Open Scope Z_scope.

Lemma setbit_top k r : 1 <= k -> 0 <= r < 2 ^ k -> Z.setbit r (k - 1) = with_top k r.
Proof.
  intros K R. unfold with_top. assert (P : 2 ^ k = 2 * 2 ^ (k - 1)) by (rewrite <- Z.pow_succ_r by lia; f_equal; lia).
  destruct (Z.ltb_spec r (2 ^ (k - 1))) as [L|L].
  - rewrite Z.setbit_spec'. assert (N : Z.land r (2 ^ (k - 1)) = 0).
    { apply Z.bits_inj'. intros n N. rewrite Z.land_spec, Z.bits_0, Z.pow2_bits_eqb by lia. destruct (Z.eqb_spec (k - 1) n) as [<-|]; [|apply andb_false_r]. rewrite andb_true_r.
      destruct (Z.eq_dec r 0) as [->|]; [apply Z.bits_0|]. apply Z.bits_above_log2; [lia|]. apply Z.log2_lt_pow2; lia. }
    now rewrite Z.add_nocarry_lxor, Z.lxor_lor by exact N.
  - apply Z.bits_inj'. intros n N. rewrite Z.setbit_eqb by lia. destruct (Z.eqb_spec (k - 1) n) as [<-|]; [|reflexivity]. cbn [orb]. symmetry.
    replace (k - 1) with (Z.log2 r); [apply Z.bit_log2; lia|]. apply Z.log2_unique; [lia|]. replace (Z.succ (k - 1)) with k by lia. lia.
Qed.
Lemma with_top_range k r : 1 <= k -> 0 <= r < 2 ^ k -> 2 ^ (k - 1) <= with_top k r < 2 ^ k.
Proof.
  intros K R. unfold with_top. assert (P : 2 ^ k = 2 * 2 ^ (k - 1)) by (rewrite <- Z.pow_succ_r by lia; f_equal; lia). destruct (Z.ltb_spec r (2 ^ (k - 1))); lia.
Qed.
Lemma least_unique b x y : least_prime_above b x -> least_prime_above b y -> x = y.
Proof. intros (P1 & L1 & M1) (P2 & L2 & M2). specialize (M1 _ P2 L2). specialize (M2 _ P1 L1). lia. Qed.
Lemma bits_iff n len : 1 <= len -> 0 <= n -> (bit_length n = len <-> has_bits len n).
Proof.
  intros L N. unfold bit_length, has_bits. destruct (Z.eqb_spec n 0) as [->|NZ].
  - split; [lia|]. intros [H _]. pose proof (Z.pow_pos_nonneg 2 (len - 1)). lia.
  - rewrite Z.abs_eq by lia. split.
    + intros <-. pose proof (Z.log2_spec n ltac:(lia)) as H. replace (Z.log2 n + 1 - 1) with (Z.log2 n) by lia. now replace (Z.log2 n + 1) with (Z.succ (Z.log2 n)) by lia.
    + intros H. rewrite (Z.log2_unique n (len - 1)); [lia|lia|]. now replace (Z.succ (len - 1)) with len by lia.
Qed.

Section Gen.
Context (next_prime : Z -> Z) (len : Z) (LEN : 2 <= len).
Let k := len / 2.
Context (NP : next_prime_ok k next_prime).
Lemma k_pos : 1 <= k.
Proof. unfold k. apply Z.div_le_lower_bound; lia. Qed.
Lemma prime_over r : 0 <= r < 2 ^ k -> leads_to k r (getprimeover next_prime k r).
Proof. intros R. unfold getprimeover, leads_to. rewrite setbit_top by (apply k_pos || exact R). apply NP, with_top_range; [apply k_pos|exact R]. Qed.
Lemma leads_eq r x : 0 <= r < 2 ^ k -> leads_to k r x -> getprimeover next_prime k r = x.
Proof. intros R H. eapply least_unique; [apply prime_over, R|exact H]. Qed.
Lemma leads_big r x : 0 <= r < 2 ^ k -> leads_to k r x -> prime x /\ 2 ^ (k - 1) < x.
Proof. intros R (P & L & _). pose proof (with_top_range k r k_pos R). split; [exact P|lia]. Qed.
Lemma draws_app a b : draws_ok k (a ++ b) <-> draws_ok k a /\ draws_ok k b.
Proof. unfold draws_ok. setoid_rewrite elem_of_app. split; [intros H; split; auto|]. intros [A B] r [H|H]; auto. Qed.
Lemma draws_cons a b : draws_ok k (a :: b) <-> 0 <= a < 2 ^ k /\ draws_ok k b.
Proof. unfold draws_ok. setoid_rewrite elem_of_cons. split; [intros H; split; auto|]. intros [A B] r [->|H]; auto. Qed.

(** Both directions at once: the loop in the state [st], in terms of attempts that have begun. *)
Lemma loop_sound draws : draws_ok k draws -> forall st p q, draw_loop next_prime len st draws = Ok (p, q) ->
  match st with
  | None => exists pre l post, draws = pre ++ l ++ post /\ in_vain len pre /\ attempt k l p q /\ has_bits len (p * q)
  | Some p' => exists same r' x rest, draws = same ++ r' :: rest /\ (forall s, s ∈ same -> leads_to k s p') /\ leads_to k r' x /\ p' <> x /\
      ((p = p' /\ q = x /\ has_bits len (p * q)) \/ (~ has_bits len (p' * x) /\ exists pre l post, rest = pre ++ l ++ post /\ in_vain len pre /\ attempt k l p q /\ has_bits len (p * q)))
  end \/ exists p', st = Some p' /\ p' < 0.
Proof.
  induction draws as [|r draws IH]; intros D st p q; [discriminate|]. apply draws_cons in D as [R D]. cbn [draw_loop]. fold k. pose proof (prime_over r R) as LT. destruct (leads_big _ _ R LT) as [PX BX].
  assert (X0 : 0 < getprimeover next_prime k r) by (pose proof (prime_ge_2 _ PX); lia).
  destruct st as [p'|].
  - destruct (Z.ltb_spec p' 0) as [NEG|POS]; [intros _; right; eauto|]. destruct (Z.eqb_spec (getprimeover next_prime k r) p') as [E|NE].
    + intros H. left. destruct (IH D _ _ _ H) as [(same & r' & x & rest & -> & A & B)|(? & [= <-] & ?)]; [|lia]. exists (r :: same), r', x, rest. split; [reflexivity|]. split; [|exact B].
      intros s [->|I]%elem_of_cons; [now rewrite <- E|auto].
    + destruct (Z.eqb_spec (bit_length (p' * getprimeover next_prime k r)) len) as [B|B].
      * intros [= <- <-]. left. exists [], r, (getprimeover next_prime k r), draws. split; [reflexivity|]. split; [intros s I; now apply elem_of_nil in I|]. split; [exact LT|]. split; [auto|]. left. split; [reflexivity|]. split; [reflexivity|].
        apply bits_iff; [lia|nia|exact B].
      * intros H. left. destruct (IH D _ _ _ H) as [X|(? & [=] & _)]. exists [], r, (getprimeover next_prime k r), draws. split; [reflexivity|]. split; [intros s I; now apply elem_of_nil in I|]. split; [exact LT|]. split; [auto|]. right.
        split; [|exact X]. intros HB. apply B. apply bits_iff; [lia|nia|exact HB].
  - intros H. left. destruct (IH D _ _ _ H) as [(same & r' & x & rest & -> & A & B & N & C)|(? & [= <-] & ?)]; [|lia]. destruct C as [(-> & -> & C)|(C & pre & l & post & -> & V & T & U)].
    + exists [], (r :: same ++ [r']), rest. split; [cbn; now rewrite <- app_assoc|]. split; [constructor|]. split; [|exact C]. exists r, same, r'. auto.
    + exists ((r :: same ++ [r']) ++ pre), l, post. split; [cbn; now rewrite <- !app_assoc|]. split; [|auto]. apply (vain_more len (r :: same ++ [r']) pre (getprimeover next_prime k r) x); [exists r, same, r'; auto|exact C|exact V].
Qed.
Lemma loop_attempt l p q post : draws_ok k l -> attempt k l p q ->
  draw_loop next_prime len None (l ++ post) = if bit_length (p * q) =? len then Ok (p, q) else draw_loop next_prime len None post.
Proof.
  intros D (r & same & r' & -> & L & A & B & N). apply draws_cons in D as [R D]. apply draws_app in D as [D1 D2]. apply draws_cons in D2 as [R' _]. cbn [app draw_loop]. fold k. rewrite (leads_eq r p R L). rewrite <- app_assoc. cbn [app].
  induction same as [|s same IH].
  - cbn [app draw_loop]. fold k. rewrite (leads_eq r' q R' B). destruct (Z.eqb_spec q p); [congruence|reflexivity].
  - apply draws_cons in D1 as [S D1]. cbn [app draw_loop]. fold k. rewrite (leads_eq s p S) by (apply A; left). rewrite Z.eqb_refl. apply IH; [exact D1|intros x I; apply A; now right].
Qed.
Lemma attempt_pos l p q : draws_ok k l -> attempt k l p q -> (prime p /\ 2 ^ (k - 1) < p) /\ (prime q /\ 2 ^ (k - 1) < q).
Proof.
  intros D (r & same & r' & -> & L & A & B & N). apply draws_cons in D as [R D]. apply draws_app in D as [D1 D2]. apply draws_cons in D2 as [R' _]. split; [exact (leads_big r p R L)|exact (leads_big r' q R' B)].
Qed.
Lemma loop_complete pre l post p q : draws_ok k (pre ++ l ++ post) -> in_vain len pre -> attempt k l p q -> has_bits len (p * q) -> draw_loop next_prime len None (pre ++ l ++ post) = Ok (p, q).
Proof.
  intros D V. induction V as [|a b p' q' T NB V IH]; intros A B.
  - cbn [app] in *. apply draws_app in D as [D _]. rewrite (loop_attempt l p q post D A). destruct (attempt_pos _ _ _ D A) as [[P1 _] [P2 _]]. pose proof (prime_ge_2 _ P1). pose proof (prime_ge_2 _ P2).
    apply bits_iff in B; [|lia|nia]. now rewrite B, Z.eqb_refl.
  - rewrite <- app_assoc in *. apply draws_app in D as [D1 D2]. rewrite (loop_attempt a p' q' _ D1 T). destruct (attempt_pos _ _ _ D1 T) as [[P1 _] [P2 _]]. pose proof (prime_ge_2 _ P1). pose proof (prime_ge_2 _ P2).
    destruct (Z.eqb_spec (bit_length (p' * q')) len) as [E|_]; [|auto]. apply bits_iff in E; [contradiction|lia|nia].
Qed.
(** The loop gives nothing but a pair, or is still running. *)
Lemma loop_results draws : forall st, (exists pq, draw_loop next_prime len st draws = Ok pq) \/ draw_loop next_prime len st draws = Err OutOfFuel.
Proof.
  induction draws as [|r draws IH]; intros st; [right; reflexivity|]. cbn [draw_loop]. destruct st as [p|]; [|apply IH]. destruct (_ =? p); [apply IH|]. destruct (_ =? len); [left; eauto|apply IH].
Qed.
End Gen.
