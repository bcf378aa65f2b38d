(** C72, C73: convergence functions and vector operations. *)
From Verif Require Import OperatorModel HistSpec FloatProofs TreeBatch HistProofs.
Local Open Scope nat_scope.

(** ** C72 *)
Section Converge.
  Context (rnd : Qc -> Qc) (npnorm : list Qc -> Z -> Qc) (eps : Qc).

  (** The loss of the previous call. *)
  Lemma diff_calls_at losses pre i l : losses !! i = Some l ->
    diff_calls rnd eps pre losses !! i = Some (is_converge rnd eps (match i with 0 => pre | S j => losses !! j end) l).
  Proof.
    revert pre i. induction losses as [|x r IH]; intros pre i Hi; [discriminate|]. destruct i as [|i]; [injection Hi as ->; reflexivity|]. change (r !! i = Some l) in Hi. change (diff_calls rnd eps (Some x) r !! i = Some (is_converge rnd eps ((x :: r) !! i) l)). rewrite (IH (Some x) i Hi). destruct i; reflexivity.
  Qed.
  Theorem C72_diff losses i l : losses !! i = Some l -> exists b, diff_calls rnd eps None losses !! i = Some b /\
    (b = true <-> exists j p, i = S j /\ losses !! j = Some p /\ (qabs (rnd (p - l)) < eps)%Qc).
  Proof.
    intros Hi. rewrite (diff_calls_at losses None i l Hi). eexists. split; [reflexivity|]. destruct i as [|j]; cbn [is_converge].
    - split; [discriminate|]. intros (j & p & E & _). discriminate E.
    - destruct (losses !! j) as [p|] eqn:E; cbn [is_converge].
      + rewrite qltb_true. split; [eauto 10|]. intros (j' & p' & [= <-] & E' & H). rewrite E in E'. now injection E' as <-.
      + apply lookup_ge_None in E. apply lookup_lt_Some in Hi. lia.
  Qed.

  Lemma weight_calls_at calls : forall pre l, weight_calls rnd npnorm eps pre calls = Ok l -> length l = length calls /\
    forall i h w, calls !! i = Some (h, w) -> exists b, l !! i = Some b /\ weight_converge rnd npnorm eps h (match i with 0 => pre | S j => snd <$> calls !! j end) w = Ok b.
  Proof.
    induction calls as [|[h w] calls IH]; intros pre l E; cbn [weight_calls] in E; [injection E as <-; split; [reflexivity|intros i h w Hi; discriminate]|].
    destruct (weight_converge _ _ _ _ _ _) as [c|] eqn:EC; [|discriminate]. cbn [mbind res_bind] in E. destruct (weight_calls _ _ _ _ _) as [r|] eqn:ER; [|discriminate]. injection E as <-.
    destruct (IH _ _ ER) as [LR HR]. split; [cbn; now f_equal|]. intros [|i] h' w' Hi; cbn in Hi; [injection Hi as <- <-; exists c; split; [reflexivity|exact EC]|].
    destruct (HR i h' w' Hi) as (b & Hb & EB). exists b. split; [exact Hb|]. cbn. destruct i; exact EB.
  Qed.
  (** What the array [p] of the previous call holds now counts. *)
  Definition close (a b : list Qc) : Prop :=
    (npnorm (zip_with (fun x y => rnd (x - y)%Qc) a b) 2 < rnd (eps * (if decide (npnorm b 2%Z < zq 1)%Qc then zq 1 else npnorm b 2%Z)))%Qc.
  Theorem C72_weights calls l : weight_calls rnd npnorm eps None calls = Ok l -> length l = length calls /\ (calls <> [] -> l !! 0 = Some false) /\
    forall i h p h' w a b, calls !! i = Some (h, p) -> calls !! S i = Some (h', w) -> h' !! p = Some a -> h' !! w = Some b -> length a = length b ->
      exists c, l !! S i = Some c /\ (c = true <-> close a b).
  Proof.
    intros E. destruct (weight_calls_at calls None l E) as [LL HC]. split; [exact LL|]. split.
    - intros NE. destruct calls as [|[h w] calls]; [contradiction|]. destruct (HC 0 h w eq_refl) as (b & Hb & EB). cbn in EB. injection EB as <-. exact Hb.
    - intros i h p h' w a b Hi Hi' Ha Hb Lab. destruct (HC (S i) h' w Hi') as (c & Hc & EC). exists c. split; [exact Hc|]. rewrite Hi in EC. cbn in EC. unfold list_index in EC. rewrite Ha, Hb in EC. cbn [mbind res_bind] in EC.
      unfold np_sub in EC. rewrite Lab, Nat.eqb_refl in EC. cbn [mbind res_bind] in EC. unfold norm in EC. cbn in EC. injection EC as <-. unfold close.
      assert (X : (if qltb (npnorm b 2) (zq 1) then zq 1 else npnorm b 2) = (if decide (npnorm b 2 < zq 1)%Qc then zq 1 else npnorm b 2)).
      { destruct (qltb (npnorm b 2) (zq 1)) eqn:Q; destruct (decide _) as [D|D]; try reflexivity; [apply qltb_true in Q; contradiction|]. apply qltb_true in D. congruence. }
      rewrite X. apply qltb_true.
  Qed.
  (** (Defect) One array that the caller updates in place: from the second call on the answer is yes, whatever it holds. *)
  Theorem C72_in_place w calls l : (forall n, npnorm (repeat (zq 0) n) 2%Z = zq 0) -> rnd (zq 0) = zq 0 -> (forall x, (eps <= x)%Qc -> (zq 0 < rnd x)%Qc) -> (0 < eps)%Qc ->
    (forall h v, (h, v) ∈ calls -> v = w) -> weight_calls rnd npnorm eps None calls = Ok l -> forall i c, l !! S i = Some c -> c = true.
  Proof.
    intros NZ R0 RP EP SW E i c Hc. destruct (weight_calls_at calls None l E) as [LL HC].
    destruct (lookup_lt_is_Some_2 calls (S i)) as [[h v] Hv]; [rewrite <- LL; now apply lookup_lt_Some in Hc|]. destruct (lookup_lt_is_Some_2 calls i) as [[h0 v0] Hv0]; [apply lookup_lt_Some in Hv; lia|].
    destruct (HC (S i) h v Hv) as (b & Hb & EB). rewrite Hb in Hc. injection Hc as ->. rewrite Hv0 in EB. cbn in EB.
    rewrite (SW h0 v0 (elem_of_list_lookup_2 _ _ _ Hv0)), (SW h v (elem_of_list_lookup_2 _ _ _ Hv)) in EB. unfold list_index in EB. destruct (h !! w) as [a|] eqn:Ha; [|discriminate]. cbn [mbind res_bind] in EB.
    unfold np_sub in EB. rewrite Nat.eqb_refl in EB. cbn [mbind res_bind] in EB. unfold norm in EB. cbn in EB. injection EB as <-.
    assert (Z0 : zip_with (fun x y => rnd (x - y)%Qc) a a = repeat (zq 0) (length a)).
    { clear -R0. induction a as [|x a IH]; [reflexivity|]. cbn. f_equal; [|exact IH]. rewrite <- R0. f_equal. unfold Qcminus. apply Qcplus_opp_r. }
    rewrite Z0, NZ. apply qltb_true. apply RP. destruct (qltb (npnorm a 2) (zq 1)) eqn:Q; [|apply qltb_false in Q].
    - rewrite Qcmult_1_r. apply Qcle_refl.
    - change (zq 1) with 1%Qc in Q. qnra.
  Qed.
End Converge.
Print Assumptions C72_diff.
Print Assumptions C72_weights.
Print Assumptions C72_in_place.
(** The largest absolute value in place of the 2-norm. *)
Definition oex_norm (v : list Qc) (_ : Z) : Qc := fold_right (fun x m => if qltb m (qabs x) then qabs x else m) (zq 0) v.
Definition oex_eps : Qc := Q2Qc (1 # 1000000).
Example C72_ex : (forall n, oex_norm (repeat (zq 0) n) 2%Z = zq 0) /\ fround (zq 0) = zq 0 /\ (forall x, (oex_eps <= x)%Qc -> (zq 0 < fround x)%Qc) /\ (0 < oex_eps)%Qc /\
  weight_calls fround oex_norm oex_eps None [([[zq 1; zq 2]; [zq 1; zq 2]], 0); ([[zq 1; zq 2]; [zq 1; zq 2]], 1); ([[zq 5; zq 2]; [zq 1; zq 2]], 0)] = Ok [false; true; false] /\
  diff_calls fround oex_eps None [zq 3; zq 2; zq 2] = [false; false; true].
Proof.
  split; [intros n; induction n as [|n IH]; [reflexivity|cbn; unfold oex_norm in IH; rewrite IH; reflexivity]|]. split; [apply FixedPointProofs.fround_0|]. split; [|split; [reflexivity|split; vm_compute; reflexivity]].
  intros x Hx. apply Qclt_le_trans with (fround oex_eps); [vm_compute; reflexivity|now apply fround_mono].
Qed.
(** The weights move by 4 in every step, in one array, and convergence is reported. *)
Theorem C72_in_place_refuted : exists (calls : list (list (list Qc) * nat)) l i h h' w a b, weight_calls fround oex_norm oex_eps None calls = Ok l /\
  calls !! i = Some (h, w) /\ calls !! S i = Some (h', w) /\ h !! w = Some a /\ h' !! w = Some b /\ ~ close fround oex_norm oex_eps a b /\ l !! S i = Some true.
Proof.
  exists [([[zq 1]], 0); ([[zq 5]], 0)], [false; true], 0, [[zq 1]], [[zq 5]], 0, [zq 1], [zq 5]. repeat split; try (vm_compute; reflexivity). vm_compute. discriminate.
Qed.
Print Assumptions C72_in_place_refuted.

(** ** C73 *)
Section Dot.
  Context (rnd : Qc -> Qc).
  (** Below the double next to 1e-5. *)
  Definition tiny (x : Qc) : Prop := (qabs x < fround (Q2Qc (1 # 100000)))%Qc.
  (** Two numbers count as the same for [dot]. *)
  Definition alike (x y : Qc) : Prop := x = y \/ (tiny x /\ tiny y).
  Lemma one_dot_alike X Y w : Forall2 alike X Y -> forall i acc, one_dot rnd i acc X w = one_dot rnd i acc Y w.
  Proof.
    induction 1 as [|x y X Y XY _ IH]; intros i acc; [reflexivity|]. cbn [one_dot]. destruct XY as [<-|[Hx Hy]].
    - destruct (qltb _ _); [apply IH|]. destruct (list_index w i); [cbn [mbind res_bind]; apply IH|reflexivity].
    - rewrite (proj2 (qltb_true (qabs x) TINY) Hx), (proj2 (qltb_true (qabs y) TINY) Hy). apply IH.
  Qed.
  Theorem C73_small X Y w : Forall2 alike X Y -> dot rnd (inl X) w = dot rnd (inl Y) w.
  Proof. intros H. unfold dot. now rewrite (one_dot_alike X Y w H). Qed.
  Lemma one_dot_total X w : forall i acc, (forall j x, X !! j = Some x -> ~ tiny x -> i + j < length w) -> exists r, one_dot rnd i acc X w = Ok r.
  Proof.
    induction X as [|x X IH]; intros i acc H; [eauto|]. cbn [one_dot]. assert (HX : forall j y, X !! j = Some y -> ~ tiny y -> S i + j < length w). { intros j y Hj Hy. specialize (H (S j) y Hj Hy). lia. }
    destruct (qltb (qabs x) TINY) eqn:Q; [now apply IH|]. assert (L : i < length w). { specialize (H 0 x eq_refl). rewrite Nat.add_0_r in H. apply H. intros T. apply (proj2 (qltb_true (qabs x) TINY)) in T. congruence. }
    unfold list_index. destruct (lookup_lt_is_Some_2 w i L) as [y ->]. cbn [mbind res_bind]. now apply IH.
  Qed.
  Lemma one_dot_raises X w : forall i acc j x, X !! j = Some x -> ~ tiny x -> length w <= i + j -> one_dot rnd i acc X w = Err IndexError.
  Proof.
    induction X as [|z X IH]; intros i acc j x Hj Hx L; [discriminate|]. cbn [one_dot]. destruct (qltb (qabs z) TINY) eqn:Q.
    - destruct j as [|j]; [injection Hj as ->; apply qltb_true in Q; contradiction|]. apply (IH (S i) acc j x Hj Hx). lia.
    - unfold list_index. destruct (w !! i) as [y|] eqn:Ey; [|reflexivity]. cbn [mbind res_bind]. destruct j as [|j]; [apply lookup_lt_Some in Ey; lia|]. apply (IH (S i) _ j x Hj Hx). lia.
  Qed.
  (** Which pairs of lengths are accepted. *)
  Theorem C73_lengths X w : (exists r, dot rnd (inl X) w = Ok r) <-> forall j x, X !! j = Some x -> ~ tiny x -> j < length w.
  Proof.
    unfold dot. split.
    - intros [r Hr] j x Hj Hx. destruct (decide (j < length w)) as [L|L]; [exact L|]. rewrite (one_dot_raises X w 0 (zq 0) j x Hj Hx) in Hr by lia. discriminate Hr.
    - intros H. destruct (one_dot_total X w 0 (zq 0)) as [r Hr]; [intros j x Hj Hx; exact (H j x Hj Hx)|]. rewrite Hr. cbn [mbind res_bind]. eauto.
  Qed.
  Theorem C73_raises X w : ~ (forall j x, X !! j = Some x -> ~ tiny x -> j < length w) -> dot rnd (inl X) w = Err IndexError.
  Proof.
    intros N. unfold dot. destruct (one_dot rnd 0 (zq 0) X w) as [r|e] eqn:E.
    - exfalso. apply N. intros j x Hj Hx. destruct (decide (j < length w)) as [L|L]; [exact L|]. rewrite (one_dot_raises X w 0 (zq 0) j x Hj Hx) in E by lia. discriminate E.
    - assert (X0 : forall X i acc e, one_dot rnd i acc X w = Err e -> e = IndexError).
      { clear. induction X as [|z X IH]; intros i acc e E; [discriminate|]. cbn [one_dot] in E. destruct (qltb _ _); [eauto|]. unfold list_index in E. destruct (w !! i); [cbn [mbind res_bind] in E; eauto|]. now injection E as <-. }
      now rewrite (X0 _ _ _ _ E).
  Qed.
  (** A 2-d array is treated row by row. *)
  Theorem C73_rows rows w r : dot rnd (inr rows) w = Ok (inr r) <-> length r = length rows /\ forall i x, rows !! i = Some x -> exists y, r !! i = Some y /\ dot rnd (inl x) w = Ok (inl y).
  Proof.
    unfold dot. split.
    - intros E. destruct (mapR _ rows) as [r'|] eqn:EM; [|discriminate]. injection E as ->. destruct (mapR_inv _ _ _ EM) as [L H]. split; [exact L|]. intros i x Hx. destruct (H i x Hx) as (y & Hy & ->). exists y. split; [exact Hy|reflexivity].
    - intros [L H]. assert (EM : mapR (fun x => one_dot rnd 0 (zq 0) x w) rows = Ok r).
      { apply TreeBatch.mapR_pointwise; [now symmetry|]. intros i x y Hx Hy. destruct (H i x Hx) as (y' & Hy' & E). rewrite Hy in Hy'. injection Hy' as <-. destruct (one_dot _ _ _ _ _); [|discriminate]. now injection E as <-. }
      rewrite EM. reflexivity.
  Qed.
End Dot.
(** The error with exact additions, for arrays of the same length. *)
Theorem C73_error (X w : list Qc) : length X = length w -> exists r, dot (fun x => x) (inl X) w = Ok (inl r) /\ (qabs (r - qsum (zip_with Qcmult w X)) <= TINY * qsum (map qabs w))%Qc.
Proof.
  intros L. assert (TP : (0 <= TINY)%Qc) by (vm_compute; discriminate).
  assert (H : forall X w pre acc, length X = length w -> exists r, one_dot (fun x => x) (length pre) acc X (pre ++ w) = Ok r /\ (qabs (r - acc - qsum (zip_with Qcmult w X)) <= TINY * qsum (map qabs w))%Qc).
  { clear X w L. induction X as [|x X IH]; intros [|y w] pre acc L; try discriminate L.
    - exists acc. split; [reflexivity|]. cbn. change (zq 0) with 0%Qc. replace (acc - acc - 0)%Qc with 0%Qc by ring. replace (TINY * 0)%Qc with 0%Qc by ring. vm_compute. discriminate.
    - cbn in L. injection L as L. cbn [one_dot zip_with map qsum foldr]. change (foldr Qcplus (zq 0)) with qsum.
      assert (E0 : forall acc', exists r, one_dot (fun x => x) (S (length pre)) acc' X (pre ++ y :: w) = Ok r /\ (qabs (r - acc' - qsum (zip_with Qcmult w X)) <= TINY * qsum (map qabs w))%Qc).
      { intros acc'. destruct (IH w (pre ++ [y]) acc' L) as (r & Hr & B). rewrite app_length in Hr. cbn [length] in Hr. rewrite Nat.add_1_r, <- app_assoc in Hr. exists r. split; [exact Hr|exact B]. }
      assert (QN : (0 <= qabs y)%Qc) by apply qabs_nonneg.
      destruct (qltb (qabs x) TINY) eqn:Q.
      + destruct (E0 acc) as (r & Hr & B). exists r. split; [exact Hr|]. apply qltb_true in Q. pose proof (qabs_nonneg x) as QX.
        replace (r - acc - (y * x + qsum (zip_with Qcmult w X)))%Qc with ((r - acc - qsum (zip_with Qcmult w X)) + - (y * x))%Qc by ring.
        eapply Qcle_trans; [apply qabs_triangle|]. rewrite qabs_opp, qabs_mul. assert (M : (qabs y * qabs x <= qabs y * TINY)%Qc) by (rewrite !(Qcmult_comm (qabs y)); apply Qcmult_le_compat_r; [now apply Qclt_le_weak|exact QN]).
        rewrite Qcmult_plus_distr_r, (Qcplus_comm (TINY * qabs y)), (Qcmult_comm TINY (qabs y)). now apply Qcplus_le_compat.
      + unfold list_index. rewrite lookup_app_r by lia. rewrite Nat.sub_diag. cbn [lookup list_lookup mbind res_bind]. destruct (E0 (acc + y * x)%Qc) as (r & Hr & B). exists r. split; [exact Hr|].
        replace (r - acc - (y * x + qsum (zip_with Qcmult w X)))%Qc with (r - (acc + y * x) - qsum (zip_with Qcmult w X))%Qc by ring. eapply Qcle_trans; [exact B|]. rewrite Qcmult_plus_distr_r.
        assert (M : (0 <= TINY * qabs y)%Qc) by (replace 0%Qc with (0 * qabs y)%Qc by ring; now apply Qcmult_le_compat_r). qlra. }
  destruct (H X w [] (zq 0) L) as (r & Hr & B). exists r. unfold dot. cbn [length app] in Hr. rewrite Hr. cbn [mbind res_bind]. split; [reflexivity|]. replace (r - qsum (zip_with Qcmult w X))%Qc with (r - zq 0 - qsum (zip_with Qcmult w X))%Qc; [exact B|].
  change (zq 0) with 0%Qc. ring.
Qed.
(** (Defect) Not homogeneous: the answer for 10^-6 X is not 10^-6 times that for X. *)
Theorem C73_scaling_refuted : exists (X w : list Qc) c r r', dot (fun x => x) (inl X) w = Ok (inl r) /\ dot (fun x => x) (inl (map (Qcmult c) X)) w = Ok (inl r') /\ r' = zq 0 /\ (c * r)%Qc = zq 1.
Proof.
  exists [zq 1], [zq 1000000], (Q2Qc (1 # 1000000)), (zq 1000000), (zq 0). split; [vm_compute; f_equal; f_equal; apply Qc_is_canon; reflexivity|]. split; [vm_compute; reflexivity|]. split; [reflexivity|]. apply Qc_is_canon. vm_compute. reflexivity.
Qed.
Print Assumptions C73_small.
Print Assumptions C73_lengths.
Print Assumptions C73_raises.
Print Assumptions C73_rows.
Print Assumptions C73_error.
Print Assumptions C73_scaling_refuted.
(** The hypotheses of C73_small, C73_lengths, C73_raises and C73_error: a short second argument is accepted if what is left over is
    small. *)
Definition oex_small : Qc := Q2Qc (1 # 1000000).
Example C73_ex : Forall2 alike [zq 3; oex_small] [zq 3; zq 0] /\ match dot fround (inl [zq 3; oex_small]) [zq 2] with Ok (inl r) => this r = 6%Q | _ => False end /\ dot fround (inl [zq 3; zq 1]) [zq 2] = Err IndexError /\
  match dot fround (inr [[zq 3; zq 1]; [zq 1; zq 1]]) [zq 2; zq 1] with Ok (inr r) => map this r = [7%Q; 3%Q] | _ => False end.
Proof.
  split; [constructor; [now left|constructor; [right; split; vm_compute; reflexivity|constructor]]|]. split; [vm_compute; reflexivity|]. split; vm_compute; reflexivity.
Qed.

Section Reduce.
  Context (rnd : Qc -> Qc).
  (** The [j]-th items of the vectors, in order. *)
  Definition items (j : nat) (vs : list summand) : list Qc := omap (fun s => match s with Vector l => l !! j | _ => None end) vs.
  Lemma items_cons j s vs : items j (s :: vs) = match (match s with Vector l => l !! j | _ => None end) with Some x => x :: items j vs | None => items j vs end.
  Proof. reflexivity. Qed.
  Lemma reduce_lists x y : length x <= length y -> exists r, reduce_add rnd (Vector x) (Vector y) = Ok (Vector r) /\ length r = length x /\ forall j a b, x !! j = Some a -> y !! j = Some b -> r !! j = Some (rnd (a + b)%Qc).
  Proof.
    intros L. cbn [reduce_add]. set (f := fun ia : nat * Qc => b ← list_index y ia.1; Ok (rnd (ia.2 + b)%Qc)).
    destruct (mapR_at f (imap (fun i a => (i, a)) x)) as (r & Hr & Lr & HA).
    { intros i [k a] Hi. rewrite list_lookup_imap in Hi. destruct (x !! i) as [a'|] eqn:Ei; [|discriminate]. cbn in Hi. injection Hi as <- <-. unfold f, list_index. cbn [fst snd]. apply lookup_lt_Some in Ei.
      destruct (lookup_lt_is_Some_2 y i) as [b ->]; [lia|]. cbn [mbind res_bind]. eauto. }
    exists r. change (mapR _ _) with (mapR f (imap (fun i a => (i, a)) x)). rewrite Hr. cbn [mbind res_bind]. split; [reflexivity|]. split; [now rewrite Lr, imap_length|].
    intros j a b Ha Hb. destruct (mapR_inv _ _ _ Hr) as [_ HB]. destruct (HB j (j, a)) as (z & Hz & Ez); [rewrite list_lookup_imap, Ha; reflexivity|]. unfold f, list_index in Ez. cbn [fst snd] in Ez. rewrite Hb in Ez. cbn [mbind res_bind] in Ez. injection Ez as <-. exact Hz.
  Qed.
  (** Item by item, in the order of the arguments, None left out. *)
  Theorem C73_reduce n vs : (forall s, s ∈ vs -> s = Nothing \/ exists l, s = Vector l /\ length l = n) -> exists s, foldM (reduce_add rnd) Nothing vs = Ok s /\
    ((forall v, v ∈ vs -> v = Nothing) /\ s = Nothing \/ exists r, s = Vector r /\ length r = n /\ forall j, j < n -> exists a l, items j vs = a :: l /\ r !! j = Some (fold_left (fun x y => rnd (x + y)%Qc) l a)).
  Proof.
    intros H. assert (V : forall vs r0, (forall s, s ∈ vs -> s = Nothing \/ exists l, s = Vector l /\ length l = n) -> length r0 = n -> exists r, foldM (reduce_add rnd) (Vector r0) vs = Ok (Vector r) /\ length r = n /\
      forall j a, r0 !! j = Some a -> r !! j = Some (fold_left (fun x y => rnd (x + y)%Qc) (items j vs) a)).
    { clear vs H. induction vs as [|s vs IH]; intros r0 H L; [exists r0; cbn; auto|]. assert (H' : forall s, s ∈ vs -> s = Nothing \/ exists l, s = Vector l /\ length l = n) by (intros x Hx; apply H; now right).
      destruct (H s (elem_of_list_here _ _)) as [->|(l & -> & Ll)].
      - destruct (IH r0 H' L) as (r & Hr & LR & HA). exists r. split; [exact Hr|]. split; [exact LR|exact HA].
      - destruct (reduce_lists r0 l) as (r1 & E1 & L1 & A1); [lia|]. destruct (IH r1 H') as (r & Hr & LR & HA); [lia|]. exists r. cbn [foldM]. rewrite E1. cbn [mbind res_bind]. split; [exact Hr|]. split; [exact LR|].
        intros j a Ha. rewrite items_cons. destruct (lookup_lt_is_Some_2 l j) as [b Hb]; [apply lookup_lt_Some in Ha; lia|]. rewrite Hb. cbn [fold_left]. apply HA. exact (A1 j a b Ha Hb). }
    induction vs as [|s vs IH]; [exists Nothing; split; [reflexivity|left; split; [intros v Hv; inversion Hv|reflexivity]]|].
    assert (H' : forall s, s ∈ vs -> s = Nothing \/ exists l, s = Vector l /\ length l = n) by (intros x Hx; apply H; now right).
    destruct (H s (elem_of_list_here _ _)) as [->|(l & -> & Ll)].
    - destruct (IH H') as (s & E & D). exists s. split; [exact E|]. destruct D as [[D ->]|D]; [left; split; [intros v [->|Hv]%elem_of_cons; auto|reflexivity]|right]. exact D.
    - destruct (V vs l H' Ll) as (r & Hr & LR & HA). exists (Vector r). split; [exact Hr|]. right. exists r. split; [reflexivity|]. split; [exact LR|]. intros j Hj. destruct (lookup_lt_is_Some_2 l j) as [a Ha]; [lia|].
      exists a, (items j vs). rewrite items_cons, Ha. split; [reflexivity|]. now apply HA.
  Qed.
  (** A longer second vector is cut off, a shorter one raises. *)
  Theorem C73_reduce_lengths x y : (length x <= length y -> exists r, reduce_add rnd (Vector x) (Vector y) = Ok (Vector r) /\ length r = length x) /\ (length y < length x -> reduce_add rnd (Vector x) (Vector y) = Err IndexError).
  Proof.
    split; [intros L; destruct (reduce_lists x y L) as (r & E & LR & _); eauto|]. intros L. cbn [reduce_add].
    assert (X : forall x k, length y < k + length x -> k <= length y -> mapR (fun ia : nat * Qc => b ← list_index y ia.1; Ok (rnd (ia.2 + b)%Qc)) (imap (fun i a => (k + i, a)) x) = Err IndexError).
    { clear x L. induction x as [|a x IH]; intros k L1 L2; [cbn in L1; lia|]. cbn [imap mapR fst snd]. rewrite Nat.add_0_r. unfold list_index at 1. destruct (y !! k) as [b|] eqn:Eb; [|reflexivity]. cbn [mbind res_bind].
      erewrite imap_ext; [rewrite (IH (S k))|]; [reflexivity|cbn in L1; lia|now apply lookup_lt_Some in Eb|]. intros i z _. cbn. f_equal. lia. }
    specialize (X x 0). cbn [Nat.add] in X. rewrite X by lia. reflexivity.
  Qed.
  (** The kinds of arguments that do not add: a number before a vector, and a vector with items before a number. *)
  Theorem C73_reduce_kinds x y : reduce_add rnd x y = Err TypeError <-> (exists a l, x = Number a /\ y = Vector l) \/ (exists l b, x = Vector l /\ l <> [] /\ y = Number b).
  Proof.
    split.
    - destruct x as [|a|l], y as [|b|m]; cbn [reduce_add]; try discriminate; [left; eauto|destruct l; [discriminate|right; eauto]|].
      destruct (decide (length l <= length m)) as [L|L].
      + destruct (reduce_lists l m L) as (r & E & _). cbn [reduce_add] in E. rewrite E. discriminate.
      + pose proof (proj2 (C73_reduce_lengths l m)) as E. cbn [reduce_add] in E. rewrite E by lia. discriminate.
    - intros [(a & l & -> & ->)|(l & b & -> & N & ->)]; [reflexivity|]. destruct l; [contradiction|reflexivity].
  Qed.
  (** None is neutral, numbers add, and a vector without items stays as it is. *)
  Theorem C73_reduce_values : (forall y, reduce_add rnd Nothing y = Ok y) /\ (forall x, reduce_add rnd x Nothing = Ok x) /\
    (forall a b, reduce_add rnd (Number a) (Number b) = Ok (Number (rnd (a + b)%Qc))) /\ forall y, y <> Nothing -> (forall a, y <> Number a \/ reduce_add rnd (Vector []) y = Ok (Vector [])).
  Proof. split; [reflexivity|]. split; [now intros [| |]|]. split; [reflexivity|]. intros [|a|l] N b; [contradiction|right; reflexivity|left; discriminate]. Qed.
  (** The order of a norm has to be at least 1. *)
  Theorem C73_norm (npnorm : list Qc -> Z -> Qc) v p : (norm npnorm v p = Ok (npnorm v p) <-> (1 <= p)%Z) /\ (norm npnorm v p = Err ValueError <-> (p < 1)%Z).
  Proof. unfold norm. destruct (p <? 1)%Z eqn:E; split; (split; [try discriminate; intros _; lia|intros; try reflexivity; lia]). Qed.
End Reduce.
Print Assumptions C73_reduce.
Print Assumptions C73_reduce_kinds.
Print Assumptions C73_reduce_values.
Print Assumptions C73_norm.
Print Assumptions C73_reduce_lengths.
Example C73_reduce_ex : (forall s, s ∈ [Nothing; Vector [zq 1; zq 2]; Nothing; Vector [zq 3; zq 5]] -> s = Nothing \/ exists l, s = Vector l /\ length l = 2) /\
  match foldM (reduce_add fround) Nothing [Nothing; Vector [zq 1; zq 2]; Nothing; Vector [zq 3; zq 5]] with Ok (Vector r) => map this r = [4%Q; 7%Q] | _ => False end.
Proof.
  split; [|vm_compute; reflexivity]. intros s Hs. repeat rewrite elem_of_cons in Hs. destruct Hs as [->|[->|[->|[->|Hs]]]]; [now left|right; eexists; split; reflexivity|now left|right; eexists; split; reflexivity|inversion Hs].
Qed.
(** The order of the arguments matters. *)
Theorem C73_reduce_refuted : exists x y z, reduce_add fround x y = Ok z /\ reduce_add fround y x = Err IndexError.
Proof. exists (Vector [zq 1]), (Vector [zq 1; zq 2]). eexists. split; vm_compute; reflexivity. Qed.
Print Assumptions C73_reduce_refuted.
