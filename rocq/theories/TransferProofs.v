(** Lemmas about framing. *)
From Verif Require Import PyBase TransferModel TransferSpec.
From Coq Require Import ZArith ZifyBool.
Ltac Zify.zify_post_hook ::= Z.div_mod_to_equations.
Open Scope Z_scope.

(** value of a digit string *)
Definition dval (acc : Z) (l : bytes) : Z := fold_left (fun a b => 10 * a + (b - 48)) l acc.

Lemma digits_aux_spec fuel n :
  0 <= n < 2 ^ Z.of_nat fuel -> (0 < fuel)%nat ->
  Forall (fun b => is_digit b = true) (digits_aux fuel n)
  /\ digits_aux fuel n ≠ [] /\ dval 0 (digits_aux fuel n) = n.
Proof.
  revert n. induction fuel as [|fuel IH]; intros n Hn Hf; [lia|]. cbn [digits_aux].
  destruct (Z.ltb_spec n 10) as [Hlt|Hge].
  - split_and!.
    + repeat constructor. unfold is_digit. lia.
    + done.
    + unfold dval. cbn. lia.
  - assert (Hf' : (0 < fuel)%nat).
    { destruct fuel; [|lia]. cbn in Hn. lia. }
    assert (Hpow : 2 ^ Z.of_nat (S fuel) = 2 * 2 ^ Z.of_nat fuel).
    { rewrite Nat2Z.inj_succ, Z.pow_succ_r by lia. done. }
    destruct (IH (n / 10)) as (H1 & H2 & H3); [lia|done|].
    split_and!.
    + apply Forall_app. split; [done|]. repeat constructor. unfold is_digit. lia.
    + intros E. by apply app_eq_nil in E as [_ E].
    + unfold dval in *. rewrite fold_left_app, H3. cbn. lia.
Qed.

Lemma log2_bound n : 0 <= n -> 0 <= n < 2 ^ Z.of_nat (S (Z.to_nat (Z.log2 n))).
Proof.
  intros Hn. split; [done|]. rewrite Nat2Z.inj_succ, Z2Nat.id by apply Z.log2_nonneg.
  destruct (Z.eq_dec n 0) as [->|Hnz]; [done|]. apply Z.log2_spec. lia.
Qed.

Lemma digits_spec n : 0 <= n ->
  Forall (fun b => is_digit b = true) (digits n) /\ digits n ≠ [] /\ dval 0 (digits n) = n.
Proof. intros Hn. apply digits_aux_spec; [by apply log2_bound|lia]. Qed.

Lemma digits_aux_length fuel n (k : nat) :
  0 <= n < 10 ^ Z.of_nat k -> (0 < k)%nat -> (length (digits_aux fuel n) <= k)%nat.
Proof.
  revert n k. induction fuel as [|fuel IH]; intros n k Hn Hk; cbn [digits_aux]; [cbn; lia|].
  destruct (Z.ltb_spec n 10) as [Hlt|Hge]; [cbn; lia|].
  rewrite app_length. cbn [length].
  destruct k as [|k]; [lia|].
  assert (Hpow : 10 ^ Z.of_nat (S k) = 10 * 10 ^ Z.of_nat k).
  { rewrite Nat2Z.inj_succ, Z.pow_succ_r by lia. done. }
  destruct k as [|k]; [cbn in Hn; lia|].
  specialize (IH (n / 10) (S k)). lia.
Qed.

Lemma digits_length n : 0 <= n < 10 ^ 16 -> (length (digits n) <= 16)%nat.
Proof. intros Hn. apply (digits_aux_length _ n 16); [exact Hn|lia]. Qed.

Lemma parse_digits_ok l acc b :
  Forall (fun b => is_digit b = true) l -> l ≠ [] \/ b = true ->
  parse_digits acc b l = Some (dval acc l).
Proof.
  revert acc b. induction l as [|d l IH]; intros acc b Hd Hb; cbn.
  - destruct Hb as [Hb|Hb]; [done|by subst].
  - apply Forall_cons in Hd as [Hd Hl]. rewrite Hd. apply IH; [done|by right].
Qed.

Lemma digit_not_ws d : is_digit d = true -> is_ws d = false.
Proof. unfold is_digit, is_ws. lia. Qed.

Lemma lstrip_digit l : (exists d l', l = d :: l' /\ is_digit d = true) -> lstrip l = l.
Proof. intros (d & l' & -> & Hd). cbn. by rewrite digit_not_ws. Qed.

Lemma lstrip_replicate k l : lstrip (replicate k 32 ++ l) = lstrip l.
Proof. induction k as [|k IH]; cbn; done. Qed.

Lemma strip_digits l k :
  Forall (fun b => is_digit b = true) l -> l ≠ [] -> strip (l ++ replicate k 32) = l.
Proof.
  intros Hd Hne. unfold strip.
  rewrite (lstrip_digit (l ++ _)).
  2:{ destruct l as [|d l]; [done|]. exists d, (l ++ replicate k 32). split; [done|]. by apply Forall_cons in Hd as [Hd _]. }
  rewrite reverse_app, reverse_replicate, lstrip_replicate.
  rewrite lstrip_digit; [by rewrite reverse_involutive|].
  destruct l as [|d l] using rev_ind; [done|].
  apply Forall_app in Hd as [_ Hd]. apply Forall_cons in Hd as [Hd _].
  exists d, (reverse l). by rewrite reverse_snoc.
Qed.

Lemma parse_int_digits l k :
  Forall (fun b => is_digit b = true) l -> l ≠ [] -> parse_int (l ++ replicate k 32) = Some (dval 0 l).
Proof.
  intros Hd Hne. unfold parse_int. rewrite strip_digits by done.
  destruct l as [|d l]; [done|].
  assert (Hdd : is_digit d = true) by (by apply Forall_cons in Hd as [? _]).
  assert (Hp : parse_digits 0 false (d :: l) = Some (dval 0 (d :: l))) by (apply parse_digits_ok; [done|by left]).
  unfold is_digit in Hdd.
  repeat match goal with
  | |- match ?x with _ => _ end = _ => destruct x; try lia; try exact Hp
  end.
Qed.

Lemma header_length n : 0 <= n < 10 ^ 16 -> length (header n) = 16%nat.
Proof.
  intros Hn. unfold header. rewrite app_length, replicate_length.
  pose proof (digits_length n Hn). lia.
Qed.

Lemma recv_split avail n s out s' :
  recv avail n s = (out, s') ->
  sk_in s = out ++ sk_in s' /\ (length out <= n)%nat /\ sk_pos s' = (sk_pos s + length out)%nat.
Proof.
  unfold recv. intros H. simplify_eq. cbn [sk_in sk_pos]. split_and!.
  - by rewrite take_drop.
  - rewrite take_length. lia.
  - done.
Qed.

Lemma recv_progress avail n s out s' :
  recv avail n s = (out, s') -> (0 < n)%nat -> sk_in s ≠ [] -> (0 < length out)%nat.
Proof.
  unfold recv. intros H Hn Hne. simplify_eq. rewrite take_length.
  assert (length (sk_in s) ≠ 0)%nat by (by rewrite length_zero_iff_nil). lia.
Qed.

Lemma recv_loop_ok fuel avail len acc s p rest :
  sk_in s = p ++ rest -> len = Z.of_nat (length acc + length p) -> (length p <= fuel)%nat ->
  recv_loop fuel avail len acc s = Ok (acc ++ p, Sock (sk_pos s + length p) rest).
Proof.
  revert acc s p. induction fuel as [|fuel IH]; intros acc s p Hin Hlen Hf.
  - assert (p = []) as -> by (apply length_zero_iff_nil; lia).
    cbn [recv_loop]. rewrite (proj2 (Z.ltb_ge _ _)) by (cbn in Hlen; lia).
    rewrite app_nil_r. cbn in *. rewrite Nat.add_0_r. destruct s; cbn in *; by subst.
  - cbn [recv_loop]. destruct (Z.ltb_spec (Z.of_nat (length acc)) len) as [Hlt|Hge].
    + destruct (recv avail _ s) as [more s1] eqn:E.
      pose proof (recv_split _ _ _ _ _ E) as (Hs & Hle & Hpos).
      assert (Hmore : (0 < length more)%nat).
      { apply (recv_progress _ _ _ _ _ E); [lia|]. rewrite Hin. destruct p; [cbn in *; lia|done]. }
      rewrite Hin in Hs.
      assert (Hle' : (length more <= length p)%nat) by lia.
      assert (Hp : p = more ++ drop (length more) p).
      { rewrite <- (take_drop (length more) p) at 1. f_equal.
        apply (f_equal (take (length more))) in Hs.
        rewrite take_app_le in Hs by done. rewrite take_app in Hs. done. }
      rewrite (IH _ _ (drop (length more) p)).
      * f_equal. f_equal.
        -- rewrite <- (assoc_L app). f_equal. by rewrite <- Hp.
        -- rewrite Hpos, drop_length. f_equal. lia.
      * apply (f_equal (drop (length more))) in Hs. rewrite drop_app in Hs.
        rewrite drop_app_le in Hs by done. by rewrite <- Hs.
      * rewrite app_length, drop_length. lia.
      * rewrite drop_length. lia.
    + assert (p = []) as -> by (apply length_zero_iff_nil; lia).
      rewrite app_nil_r. cbn in *. rewrite Nat.add_0_r. destruct s; cbn in *; by subst.
Qed.

Lemma recv_data_frame fuel avail s m rest :
  sk_in s = frame m ++ rest -> Z.of_nat (length m) < 10 ^ 16 ->
  (16 <= avail (sk_pos s))%nat -> (length m <= fuel)%nat ->
  recv_data fuel avail s = Ok (m, Sock (sk_pos s + 16 + length m) rest).
Proof.
  intros Hin Hlen Hav Hf. unfold recv_data, recv.
  set (n := Z.of_nat (length m)) in *.
  assert (Hh : length (header n) = 16%nat) by (apply header_length; lia).
  replace (Nat.min 16 (Nat.max 1 (avail (sk_pos s)))) with 16%nat by lia.
  assert (Ht : take 16 (sk_in s) = header n).
  { rewrite Hin. unfold frame. fold n. rewrite <- (assoc_L app). rewrite <- Hh. apply take_app. }
  assert (Hd : drop 16 (sk_in s) = m ++ rest).
  { rewrite Hin. unfold frame. fold n. rewrite <- (assoc_L app). rewrite <- Hh. apply drop_app. }
  rewrite Ht, Hd. rewrite take_ge by (rewrite Hh; done).
  destruct (digits_spec n) as (H1 & H2 & H3); [lia|].
  unfold header at 1. rewrite parse_int_digits by done. rewrite H3.
  rewrite (recv_loop_ok _ _ _ [] _ m rest); [cbn [app sk_pos]|done|cbn; done|done].
  rewrite Hh. done.
Qed.

Lemma recv_many_frames fuel avail ms s rest :
  sk_in s = concat (map frame ms) ++ rest ->
  Forall (fun m => Z.of_nat (length m) < 10 ^ 16) ms ->
  Forall (fun p => (16 <= avail p)%nat) (starts (sk_pos s) ms) ->
  Forall (fun m => (length m <= fuel)%nat) ms ->
  exists s', recv_many fuel avail (length ms) s = Ok (ms, s') /\ sk_in s' = rest.
Proof.
  revert s. induction ms as [|m ms IH]; intros s Hin Hl Hs Hf.
  - exists s. done.
  - cbn [length recv_many]. cbn [map concat] in Hin. rewrite <- (assoc_L app) in Hin.
    apply Forall_cons in Hl as [Hl1 Hl2]. cbn [starts] in Hs. apply Forall_cons in Hs as [Hs1 Hs2].
    apply Forall_cons in Hf as [Hf1 Hf2].
    rewrite (recv_data_frame _ _ _ m (concat (map frame ms) ++ rest)) by done.
    destruct (IH (Sock (sk_pos s + 16 + length m) (concat (map frame ms) ++ rest))) as (s' & -> & Hr); try done.
    by exists s'.
Qed.

(** Short headers. *)
Lemma digits_aux_take fuel n k :
  0 <= n < 2 ^ Z.of_nat fuel -> (0 < fuel)%nat -> (0 < k < length (digits_aux fuel n))%nat ->
  0 <= dval 0 (take k (digits_aux fuel n)) < n.
Proof.
  revert n. induction fuel as [|fuel IH]; intros n Hn Hf Hk; [lia|].
  cbn [digits_aux] in *. destruct (Z.ltb_spec n 10) as [Hlt|Hge]; [cbn in Hk; lia|].
  assert (Hf' : (0 < fuel)%nat).
  { destruct fuel; [|lia]. cbn in Hn. lia. }
  assert (Hpow : 2 ^ Z.of_nat (S fuel) = 2 * 2 ^ Z.of_nat fuel).
  { rewrite Nat2Z.inj_succ, Z.pow_succ_r by lia. done. }
  rewrite app_length in Hk. cbn [length] in Hk.
  assert (Hn' : 0 <= n / 10 < 2 ^ Z.of_nat fuel) by lia.
  rewrite take_app_le by lia.
  destruct (decide (k = length (digits_aux fuel (n / 10)))) as [->|Hne].
  - rewrite firstn_all. destruct (digits_aux_spec fuel (n / 10) Hn' Hf') as (_ & _ & ->). lia.
  - specialize (IH (n / 10) Hn' Hf' ltac:(lia)). lia.
Qed.

Lemma recv_loop_inv fuel avail len acc s m s' :
  recv_loop fuel avail len acc s = Ok (m, s') ->
  Z.of_nat (length acc) <= len ->
  Z.of_nat (length m) = len /\ exists p, m = acc ++ p /\ sk_in s = p ++ sk_in s'.
Proof.
  revert acc s. induction fuel as [|fuel IH]; intros acc s H Hle; cbn [recv_loop] in H.
  - destruct (Z.ltb_spec (Z.of_nat (length acc)) len); [done|]. simplify_eq.
    split; [lia|]. exists []. by rewrite app_nil_r.
  - destruct (Z.ltb_spec (Z.of_nat (length acc)) len) as [Hlt|Hge].
    + destruct (recv avail _ s) as [more s1] eqn:E.
      pose proof (recv_split _ _ _ _ _ E) as (Hs & Hle' & _).
      apply IH in H as (H1 & p & -> & H2); [|rewrite app_length; lia].
      split; [done|]. exists (more ++ p). rewrite (assoc_L app). split; [done|].
      rewrite Hs, H2. by rewrite (assoc_L app).
    + simplify_eq. split; [lia|]. exists []. by rewrite app_nil_r.
Qed.

Lemma short_header_wrong fuel avail s m rest m' s' :
  sk_in s = frame m ++ rest -> Z.of_nat (length m) < 10 ^ 16 -> starts_nonblank m ->
  (1 <= avail (sk_pos s) <= 15)%nat ->
  recv_data fuel avail s = Ok (m', s') -> m' ≠ m.
Proof.
  intros Hin Hlen (b & m0 & Hm & Hb) Hav Hr Heq. subst m'.
  unfold recv_data, recv in Hr. set (k := avail (sk_pos s)) in *.
  set (n := Z.of_nat (length m)) in *.
  assert (Hn : 0 <= n) by lia. assert (Hnpos : 0 < n) by (subst n m; cbn [length]; lia).
  assert (Hh : length (header n) = 16%nat) by (apply header_length; lia).
  replace (Nat.min 16 (Nat.max 1 k)) with k in Hr by lia.
  assert (Ht : take k (sk_in s) = take k (header n)).
  { rewrite Hin. unfold frame. fold n. rewrite <- (assoc_L app). apply take_app_le. lia. }
  assert (Hd : drop k (sk_in s) = drop k (header n) ++ m ++ rest).
  { rewrite Hin. unfold frame. fold n. rewrite <- (assoc_L app). apply drop_app_le. lia. }
  rewrite Ht, Hd in Hr. rewrite (take_ge (take k (header n)) 16) in Hr by (rewrite take_length; lia).
  destruct (digits_spec n Hn) as (H1 & H2 & H3).
  unfold header in Hr at 1.
  destruct (decide (k < length (digits n))%nat) as [Hlt|Hge].
  - rewrite take_app_le in Hr by lia.
    assert (Hd1 : Forall (fun b => is_digit b = true) (take k (digits n))).
    { apply Forall_take, H1. }
    assert (Hne : take k (digits n) ≠ []).
    { intros E. apply (f_equal length) in E. rewrite take_length in E. cbn [length] in E. lia. }
    pose proof (parse_int_digits (take k (digits n)) 0 Hd1 Hne) as Hp.
    cbn [replicate] in Hp. rewrite app_nil_r in Hp. rewrite Hp in Hr.
    pose proof (digits_aux_take (S (Z.to_nat (Z.log2 n))) n k (log2_bound n Hn) ltac:(lia)) as Hv.
    fold (digits n) in Hv. specialize (Hv ltac:(lia)).
    apply recv_loop_inv in Hr as [Hr _]; [|cbn [length]; lia]. lia.
  - rewrite take_app_ge in Hr by lia. rewrite take_replicate in Hr.
    rewrite parse_int_digits in Hr by done. rewrite H3 in Hr.
    apply recv_loop_inv in Hr as (_ & p & -> & Hs); [|cbn [length]; lia].
    cbn [sk_in app] in Hs.
    assert (Hdr : exists l, drop k (header n) = 32 :: l).
    { unfold header. rewrite drop_app_ge by lia. rewrite drop_replicate.
      unfold header in Hh. rewrite app_length, replicate_length in Hh.
      destruct (16 - length (digits n) - (k - length (digits n)))%nat as [|j] eqn:Ej; [lia|].
      cbn. by eexists. }
    destruct Hdr as [l Hl]. rewrite Hl in Hs. cbn [app] in Hm. subst p.
    cbn [app] in Hs. congruence.
Qed.

(** Peer closes early. *)
Lemma recv_loop_spins fuel avail len acc s :
  Z.of_nat (length acc + length (sk_in s)) < len ->
  recv_loop fuel avail len acc s = Err OutOfFuel.
Proof.
  revert acc s. induction fuel as [|fuel IH]; intros acc s Hlt; cbn [recv_loop].
  - by rewrite (proj2 (Z.ltb_lt _ _)) by lia.
  - rewrite (proj2 (Z.ltb_lt _ _)) by lia.
    destruct (recv avail _ s) as [more s1] eqn:E.
    pose proof (recv_split _ _ _ _ _ E) as (Hs & _ & _).
    apply IH. rewrite app_length. apply (f_equal length) in Hs. rewrite app_length in Hs. lia.
Qed.

Lemma closed_early_spins fuel avail s m j :
  sk_in s = take j (frame m) -> (0 < length m)%nat -> Z.of_nat (length m) < 10 ^ 16 ->
  (1 <= j < 16 + length m)%nat -> (16 <= avail (sk_pos s))%nat ->
  recv_data fuel avail s = Err OutOfFuel.
Proof.
  intros Hin Hpos Hlen Hj Hav. unfold recv_data, recv.
  set (n := Z.of_nat (length m)) in *.
  assert (Hn : 0 <= n) by lia.
  assert (Hh : length (header n) = 16%nat) by (apply header_length; lia).
  replace (Nat.min 16 (Nat.max 1 (avail (sk_pos s)))) with 16%nat by lia.
  destruct (digits_spec n Hn) as (H1 & H2 & H3).
  destruct (decide (j < 16)%nat) as [Hj16|Hj16].
  - assert (Ht : sk_in s = take j (header n)).
    { rewrite Hin. unfold frame. fold n. apply take_app_le. lia. }
    assert (Hdrop : drop 16 (sk_in s) = []).
    { apply drop_ge. rewrite Ht, take_length. lia. }
    rewrite Hdrop. rewrite take_take, (take_ge (sk_in s)) by (rewrite Ht, take_length; lia).
    rewrite Ht. unfold header at 1.
    destruct (decide (j < length (digits n))%nat) as [Hlt|Hge].
    + rewrite take_app_le by lia.
      assert (Hd1 : Forall (fun b => is_digit b = true) (take j (digits n))) by (apply Forall_take, H1).
      assert (Hne : take j (digits n) ≠ []).
      { intros E. apply (f_equal length) in E. rewrite take_length in E. cbn [length] in E. lia. }
      pose proof (parse_int_digits (take j (digits n)) 0 Hd1 Hne) as Hp.
      cbn [replicate] in Hp. rewrite app_nil_r in Hp. rewrite Hp.
      apply recv_loop_spins. cbn [length sk_in].
      assert (Hpos' : 0 < dval 0 (take j (digits n))).
      { clear -Hlt Hj Hn. unfold digits in *.
        assert (G : forall fuel n k, 0 <= n < 2 ^ Z.of_nat fuel -> (0 < fuel)%nat ->
                  (0 < k < length (digits_aux fuel n))%nat -> 0 < dval 0 (take k (digits_aux fuel n))).
        { clear. induction fuel as [|fuel IH]; intros n k Hn Hf Hk; [lia|].
          cbn [digits_aux] in *. destruct (Z.ltb_spec n 10) as [Hlt|Hge]; [cbn in Hk; lia|].
          assert (Hf' : (0 < fuel)%nat).
          { destruct fuel; [|lia]. cbn in Hn. lia. }
          assert (Hpow : 2 ^ Z.of_nat (S fuel) = 2 * 2 ^ Z.of_nat fuel).
          { rewrite Nat2Z.inj_succ, Z.pow_succ_r by lia. done. }
          rewrite app_length in Hk. cbn [length] in Hk.
          assert (Hn' : 0 <= n / 10 < 2 ^ Z.of_nat fuel) by lia.
          rewrite take_app_le by lia.
          destruct (decide (k = length (digits_aux fuel (n / 10)))) as [->|Hne].
          - rewrite firstn_all. destruct (digits_aux_spec fuel (n / 10) Hn' Hf') as (_ & _ & ->). lia.
          - apply (IH (n / 10) k Hn' Hf'). lia. }
        apply G; [by apply log2_bound|lia|lia]. }
      lia.
    + rewrite take_app_ge by lia. rewrite take_replicate, parse_int_digits, H3 by done.
      apply recv_loop_spins. cbn [length sk_in]. lia.
  - assert (Hsp : sk_in s = header n ++ take (j - 16) m).
    { rewrite Hin. unfold frame. fold n. rewrite take_app_ge by lia. by rewrite Hh. }
    rewrite Hsp. rewrite <- Hh at 1 2. rewrite take_app.
    assert (Hdr : drop 16 (header n ++ take (j - 16) m) = take (j - 16) m).
    { rewrite <- Hh. apply drop_app. }
    rewrite Hdr. rewrite (take_ge (header n)) by (rewrite Hh; done).
    unfold header at 1. rewrite parse_int_digits, H3 by done.
    apply recv_loop_spins. cbn [sk_in length]. rewrite take_length. lia.
Qed.

Lemma closed_at_boundary fuel avail s : sk_in s = [] -> recv_data fuel avail s = Err ValueError.
Proof. intros Hin. unfold recv_data, recv. rewrite Hin, take_nil. done. Qed.

(** Routing. *)
Lemma send_all_spec m outs : send_data_to_hosts m (-1) outs = Ok (map (fun o => o ++ frame m) outs).
Proof. done. Qed.

Lemma send_one_spec m (i : nat) outs :
  (i < length outs)%nat ->
  exists outs', send_data_to_hosts m (Z.of_nat i) outs = Ok outs'
  /\ (exists o, outs !! i = Some o /\ outs' !! i = Some (o ++ frame m))
  /\ (forall j, j ≠ i -> outs' !! j = outs !! j) /\ length outs' = length outs.
Proof.
  intros Hi. unfold send_data_to_hosts.
  rewrite (proj2 (Z.eqb_neq (Z.of_nat i) (-1))) by lia.
  rewrite (proj2 (Z.ltb_lt (Z.of_nat i) _)), (proj2 (Z.leb_le 0 (Z.of_nat i))) by lia. cbn [andb].
  eexists. split; [done|]. rewrite Nat2Z.id. split_and!.
  - destruct (lookup_lt_is_Some_2 outs i Hi) as [o Ho]. exists o. split; [done|].
    by rewrite list_lookup_alter, Ho.
  - intros j Hj. by apply list_lookup_alter_ne.
  - apply alter_length.
Qed.

Lemma send_bad_spec m index outs :
  index ≠ -1 -> (index < 0 \/ Z.of_nat (length outs) <= index) ->
  send_data_to_hosts m index outs = Err ValueError.
Proof.
  intros H1 H2. unfold send_data_to_hosts. rewrite (proj2 (Z.eqb_neq index (-1))) by done.
  destruct H2 as [H2|H2].
  - rewrite (proj2 (Z.leb_gt 0 index)) by lia. by rewrite andb_false_r.
  - rewrite (proj2 (Z.ltb_ge index _)) by lia. done.
Qed.

Lemma recv_each_spec fuel (conns : list (transport * sock)) (ms rests : list bytes) :
  length ms = length conns -> length rests = length conns ->
  (forall i av s m r, conns !! i = Some (av, s) -> ms !! i = Some m -> rests !! i = Some r ->
     sk_in s = frame m ++ r /\ Z.of_nat (length m) < 10 ^ 16
     /\ (16 <= av (sk_pos s))%nat /\ (length m <= fuel)%nat) ->
  exists cs, recv_each fuel conns = Ok (ms, cs) /\ map (fun c => sk_in c.2) cs = rests
             /\ map fst cs = map fst conns.
Proof.
  revert ms rests. induction conns as [|[av s] conns IH]; intros ms rests H1 H2 H.
  - destruct ms; [|done]. destruct rests; [|done]. by exists [].
  - destruct ms as [|m ms]; [done|]. destruct rests as [|r rests]; [done|].
    destruct (H 0%nat av s m r eq_refl eq_refl eq_refl) as (Ha & Hb & Hc & Hd).
    cbn [recv_each]. rewrite (recv_data_frame _ _ _ m r) by done.
    destruct (IH ms rests) as (cs & -> & Hcs & Hav).
    + by simplify_eq/=.
    + by simplify_eq/=.
    + intros i av' s' m' r' X1 X2 X3. apply (H (S i) av' s' m' r'); done.
    + eexists. split; [done|]. cbn. by rewrite Hcs, Hav.
Qed.

Lemma recv_all_spec fuel (conns : list (transport * sock)) (ms rests : list bytes) :
  length ms = length conns -> length rests = length conns ->
  (forall i av s m r, conns !! i = Some (av, s) -> ms !! i = Some m -> rests !! i = Some r ->
     sk_in s = frame m ++ r /\ Z.of_nat (length m) < 10 ^ 16
     /\ (16 <= av (sk_pos s))%nat /\ (length m <= fuel)%nat) ->
  exists cs, recv_data_from_hosts fuel (-1) conns = Ok (Many ms, cs) /\ map (fun c => sk_in c.2) cs = rests.
Proof.
  intros H1 H2 H. destruct (recv_each_spec fuel conns ms rests H1 H2 H) as (cs & Hr & Hcs & _).
  exists cs. unfold recv_data_from_hosts. rewrite Z.eqb_refl, Hr. done.
Qed.

Lemma recv_one_spec fuel (conns : list (transport * sock)) (i : nat) (av : transport) s m r :
  conns !! i = Some (av, s) -> sk_in s = frame m ++ r -> Z.of_nat (length m) < 10 ^ 16 ->
  (16 <= av (sk_pos s))%nat -> (length m <= fuel)%nat ->
  exists s', recv_data_from_hosts fuel (Z.of_nat i) conns = Ok (One m, <[i := (av, s')]> conns) /\ sk_in s' = r.
Proof.
  intros Hi Hin Hl Hav Hf. unfold recv_data_from_hosts.
  assert (Hlt : (i < length conns)%nat) by (by eapply lookup_lt_Some).
  rewrite (proj2 (Z.eqb_neq (Z.of_nat i) (-1))) by lia.
  rewrite (proj2 (Z.ltb_lt (Z.of_nat i) (Z.of_nat (length conns)))) by lia.
  rewrite (proj2 (Z.leb_le 0 (Z.of_nat i))) by lia. cbn [andb].
  rewrite Nat2Z.id, Hi. rewrite (recv_data_frame _ _ _ m r) by done. by eexists.
Qed.

Lemma recv_bad_spec fuel index conns :
  index ≠ -1 -> (index < 0 \/ Z.of_nat (length conns) <= index) ->
  recv_data_from_hosts fuel index conns = Err ValueError.
Proof.
  intros H1 H2. unfold recv_data_from_hosts. rewrite (proj2 (Z.eqb_neq index (-1))) by done.
  destruct H2 as [H2|H2].
  - rewrite (proj2 (Z.leb_gt 0 index)) by lia. by rewrite andb_false_r.
  - rewrite (proj2 (Z.ltb_ge index _)) by lia. done.
Qed.
