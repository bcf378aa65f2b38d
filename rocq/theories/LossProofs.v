(** Calculus for the losses. *)
From Verif Require Export DTableSpec TableRel LossModel.
Local Open Scope R_scope.

(** ** Derivatives *)
Lemma dl_ext f g x l l' : (forall z, f z = g z) -> l = l' -> derivable_pt_lim f x l -> derivable_pt_lim g x l'.
Proof. intros E <- H eps He. destruct (H eps He) as [d Hd]. exists d. intros h H0 H1. rewrite <- !E. now apply Hd. Qed.
Lemma dl_local f g x l r : 0 < r -> (forall z, Rabs (z - x) < r -> f z = g z) -> derivable_pt_lim f x l -> derivable_pt_lim g x l.
Proof.
  intros Hr E H eps He. destruct (H eps He) as [d Hd]. assert (Hm : 0 < Rmin d r) by (apply Rmin_glb_lt; [apply cond_pos|exact Hr]).
  exists (mkposreal _ Hm). intros h H0 H1. cbn in H1. rewrite <- !E.
  - apply Hd; [exact H0|]. eapply Rlt_le_trans; [exact H1|apply Rmin_l].
  - replace (x - x) with 0 by ring. now rewrite Rabs_R0.
  - replace (x + h - x) with h by ring. eapply Rlt_le_trans; [exact H1|apply Rmin_r].
Qed.
(** A function put together from two pieces at [x]. *)
Lemma dl_glue f f1 f2 x l : (forall z, z <= x -> f z = f1 z) -> (forall z, x <= z -> f z = f2 z) -> derivable_pt_lim f1 x l -> derivable_pt_lim f2 x l -> derivable_pt_lim f x l.
Proof.
  intros E1 E2 D1 D2 eps He. destruct (D1 eps He) as [d1 H1], (D2 eps He) as [d2 H2]. assert (Hm : 0 < Rmin d1 d2) by (apply Rmin_glb_lt; apply cond_pos).
  exists (mkposreal _ Hm). intros h H0 HL. cbn in HL. destruct (Rle_dec h 0).
  - rewrite (E1 (x + h)), (E1 x) by lra. apply H1; [exact H0|]. eapply Rlt_le_trans; [exact HL|apply Rmin_l].
  - rewrite (E2 (x + h)), (E2 x) by lra. apply H2; [exact H0|]. eapply Rlt_le_trans; [exact HL|apply Rmin_r].
Qed.
Lemma dl_comp f g x lf lg l : derivable_pt_lim f x lf -> derivable_pt_lim g (f x) lg -> l = lg * lf -> derivable_pt_lim (fun z => g (f z)) x l.
Proof. intros A B ->. exact (derivable_pt_lim_comp f g x lf lg A B). Qed.
Lemma dl_const c x : derivable_pt_lim (fun _ => c) x 0.
Proof. apply derivable_pt_lim_const. Qed.
Lemma dl_id x : derivable_pt_lim (fun z => z) x 1.
Proof. apply derivable_pt_lim_id. Qed.
Lemma dl_shift y x : derivable_pt_lim (fun p => p - y) x 1.
Proof. eapply dl_ext; [| |exact (derivable_pt_lim_minus _ _ _ _ _ (dl_id x) (dl_const y x))]; [reflexivity|ring]. Qed.
Lemma dl_add f g x a b l : derivable_pt_lim f x a -> derivable_pt_lim g x b -> l = a + b -> derivable_pt_lim (fun z => f z + g z) x l.
Proof. intros A B ->. exact (derivable_pt_lim_plus f g x a b A B). Qed.
Lemma dl_sub f g x a b l : derivable_pt_lim f x a -> derivable_pt_lim g x b -> l = a - b -> derivable_pt_lim (fun z => f z - g z) x l.
Proof. intros A B ->. exact (derivable_pt_lim_minus f g x a b A B). Qed.
Lemma dl_opp f x a l : derivable_pt_lim f x a -> l = - a -> derivable_pt_lim (fun z => - f z) x l.
Proof. intros A ->. exact (derivable_pt_lim_opp f x a A). Qed.
Lemma dl_scal c f x a l : derivable_pt_lim f x a -> l = c * a -> derivable_pt_lim (fun z => c * f z) x l.
Proof. intros A ->. exact (derivable_pt_lim_scal f c x a A). Qed.
Lemma dl_mul f g x a b l : derivable_pt_lim f x a -> derivable_pt_lim g x b -> l = a * g x + f x * b -> derivable_pt_lim (fun z => f z * g z) x l.
Proof. intros A B ->. exact (derivable_pt_lim_mult f g x a b A B). Qed.
Lemma dl_div f g x a b l : derivable_pt_lim f x a -> derivable_pt_lim g x b -> g x <> 0 -> l = (a * g x - b * f x) / Rsqr (g x) -> derivable_pt_lim (fun z => f z / g z) x l.
Proof. intros A B N ->. exact (derivable_pt_lim_div f g x a b A B N). Qed.
Lemma dl_exp f x a l : derivable_pt_lim f x a -> l = exp (f x) * a -> derivable_pt_lim (fun z => exp (f z)) x l.
Proof. intros A ->. eapply dl_comp; [exact A|apply derivable_pt_lim_exp|reflexivity]. Qed.
Lemma dl_ln f x a l : 0 < f x -> derivable_pt_lim f x a -> l = / f x * a -> derivable_pt_lim (fun z => ln (f z)) x l.
Proof. intros P A ->. eapply dl_comp; [exact A|now apply derivable_pt_lim_ln|reflexivity]. Qed.

(** ** Sigmoid *)
Lemma sigmoid_eq x : sigmoid x = / (1 + exp (- x)).
Proof.
  unfold sigmoid. pose proof (exp_pos x). pose proof (exp_pos (- x)). destruct (Rle_dec x 0); [|field; lra]. rewrite exp_Ropp. field. lra.
Qed.
Lemma sigmoid_01 x : 0 < sigmoid x < 1.
Proof.
  rewrite sigmoid_eq. pose proof (exp_pos (- x)). split; [apply Rinv_0_lt_compat; lra|]. rewrite <- Rinv_1. apply Rinv_lt_contravar; lra.
Qed.
Lemma sigmoid_opp x : sigmoid (- x) = 1 - sigmoid x.
Proof. rewrite !sigmoid_eq, Ropp_involutive, exp_Ropp. pose proof (exp_pos x). field. lra. Qed.
Lemma sigmoid_incr x y : x < y -> sigmoid x < sigmoid y.
Proof.
  intros H. rewrite !sigmoid_eq. pose proof (exp_pos (- x)). pose proof (exp_pos (- y)). apply Rinv_lt_contravar; [nra|]. assert (exp (- y) < exp (- x)) by (apply exp_increasing; lra). lra.
Qed.
Lemma sigmoid_deriv x : derivable_pt_lim sigmoid x (sigmoid x * (1 - sigmoid x)).
Proof.
  pose proof (exp_pos (- x)). eapply dl_ext; [intros z; symmetry; rewrite sigmoid_eq; instantiate (1 := fun z => 1 / (1 + exp (- z))); cbv beta; lra|reflexivity|].
  eapply dl_div; [apply dl_const|eapply dl_add; [apply dl_const|eapply dl_exp; [eapply dl_opp; [apply dl_id|reflexivity]|reflexivity]|reflexivity]|lra|].
  rewrite sigmoid_eq. unfold Rsqr. field. lra.
Qed.
Lemma ce_deriv y s : derivable_pt_lim (fun z => ce_row y (sigmoid z)) s (ce_grad y (sigmoid s)).
Proof.
  pose proof (sigmoid_01 s). unfold ce_row, ce_grad. eapply dl_opp; [eapply dl_add; [eapply dl_scal; [eapply dl_ln; [lra|apply sigmoid_deriv|reflexivity]|reflexivity]|
    eapply dl_scal; [eapply dl_ln; [lra|eapply dl_sub; [apply dl_const|apply sigmoid_deriv|reflexivity]|reflexivity]|reflexivity]|reflexivity]|]. field. lra.
Qed.
Lemma ce_deriv2 y s : derivable_pt_lim (fun z => ce_grad y (sigmoid z)) s (ce_hess y (sigmoid s)).
Proof. unfold ce_grad, ce_hess. eapply dl_sub; [apply sigmoid_deriv|apply dl_const|ring]. Qed.
Lemma softplus_deriv x : derivable_pt_lim softplus x (sigmoid x).
Proof.
  unfold softplus. pose proof (exp_pos x). eapply dl_ln; [lra|eapply dl_add; [apply dl_const|eapply dl_exp; [apply dl_id|reflexivity]|reflexivity]|]. rewrite sigmoid_eq, exp_Ropp. field. lra.
Qed.
Lemma log_logistic_eq x : log_logistic x = ln (sigmoid x).
Proof.
  rewrite sigmoid_eq. unfold log_logistic. pose proof (exp_pos x). pose proof (exp_pos (- x)). destruct (Rle_dec x 0); [|now rewrite ln_Rinv by lra].
  rewrite ln_Rinv by lra. replace (1 + exp (- x)) with ((1 + exp x) * exp (- x)) by (rewrite exp_Ropp; field; lra). rewrite ln_mult by lra. rewrite ln_exp. ring.
Qed.
Lemma hard_sigmoid_01 x : 0 <= hard_sigmoid x <= 1.
Proof. unfold hard_sigmoid, Rmin, Rmax. destruct (Rle_dec _ 0), (Rle_dec _ 1); lra. Qed.
Lemma softsign_1 x : -1 < softsign x < 1.
Proof.
  unfold softsign. assert (D : 0 < 1 + Rabs x) by (pose proof (Rabs_pos x); lra). split.
  - apply (Rmult_lt_reg_r (1 + Rabs x)); [exact D|]. unfold Rdiv. rewrite Rmult_assoc, Rinv_l by lra. unfold Rabs. destruct (Rcase_abs x); lra.
  - apply (Rmult_lt_reg_r (1 + Rabs x)); [exact D|]. unfold Rdiv. rewrite Rmult_assoc, Rinv_l by lra. unfold Rabs. destruct (Rcase_abs x); lra.
Qed.

(** ** Softmax *)
Lemma rmap_lookup (f : R -> R) l i : map f l !! i = option_map f (l !! i).
Proof. exact (list_lookup_fmap f l i). Qed.
Lemma rsum_pos l : l <> [] -> (forall x, x ∈ l -> 0 < x) -> 0 < rsum l.
Proof.
  induction l as [|x l IH]; [congruence|]. intros _ P. change (0 < x + rsum l). assert (0 < x) by (apply P; left). destruct l as [|y l]; [cbn; lra|].
  assert (0 < rsum (y :: l)); [|lra]. apply IH; [discriminate|]. intros z Hz. apply P. now right.
Qed.
Lemma rsum_scal c l : rsum (map (fun x => c * x) l) = c * rsum l.
Proof. induction l as [|x l IH]; [cbn; ring|]. cbn [map]. change (c * x + rsum (map (fun x => c * x) l) = c * (x + rsum l)). rewrite IH. ring. Qed.
Definition exps (s : list R) : R := rsum (map exp s).
Lemma exps_pos s : s <> [] -> 0 < exps s.
Proof. intros N. apply rsum_pos; [now destruct s|]. intros x Hx. apply elem_of_list_In, in_map_iff in Hx as (z & <- & _). apply exp_pos. Qed.
Lemma softmax_eq s : softmax s = map (fun x => exp x / exps s) s.
Proof.
  destruct s as [|a s']; [reflexivity|]. set (s := a :: s') in *. unfold softmax. cbv zeta. rewrite map_map. apply map_ext. intros x.
  set (m := rmax s). assert (EE : rsum (map (fun v => exp (v - m)) s) = exp (- m) * exps s).
  { unfold exps. rewrite <- rsum_scal, map_map. f_equal. apply map_ext. intros v. rewrite <- exp_plus. f_equal. ring. }
  rewrite EE. unfold Rminus. rewrite exp_plus. pose proof (exp_pos (- m)). pose proof (exps_pos s ltac:(discriminate)). field. lra.
Qed.
Lemma softmax_length s : length (softmax s) = length s.
Proof. rewrite softmax_eq. apply map_length. Qed.
Lemma softmax_lookup s i x : s !! i = Some x -> softmax s !! i = Some (exp x / exps s).
Proof. intros H. rewrite softmax_eq, rmap_lookup. now rewrite H. Qed.
Lemma exps_cons a s : exps (a :: s) = exp a + exps s.
Proof. reflexivity. Qed.
Lemma exps_nonneg s : 0 <= exps s.
Proof. destruct s as [|a s]; [unfold exps; cbn; lra|]. left. now apply exps_pos. Qed.
Lemma exps_le s i x : s !! i = Some x -> exp x <= exps s.
Proof.
  revert i; induction s as [|a s IH]; intros i H; [discriminate|]. rewrite exps_cons. destruct i as [|i]; cbn in H.
  - injection H as ->. pose proof (exps_nonneg s). lra.
  - specialize (IH i H). pose proof (exp_pos a). lra.
Qed.
Lemma exps_lt s i x : s !! i = Some x -> (1 < length s)%nat -> exp x < exps s.
Proof.
  destruct s as [|a [|b s]]; cbn [length]; [lia|lia|]. intros H _. rewrite exps_cons. destruct i as [|i]; cbn in H.
  - injection H as ->. pose proof (exps_pos (b :: s) ltac:(discriminate)). lra.
  - pose proof (exps_le (b :: s) i x H). pose proof (exp_pos a). lra.
Qed.
Lemma softmax_sum s : s <> [] -> rsum (softmax s) = 1.
Proof.
  intros N. rewrite softmax_eq. pose proof (exps_pos s N). rewrite (map_ext _ (fun x => / exps s * exp x)) by (intros x; unfold Rdiv; ring).
  rewrite <- (map_map exp (fun x => / exps s * x)), rsum_scal. fold (exps s). field. lra.
Qed.

(** The sum of exponentials as a function of one score. *)
Lemma exps_insert s c x z : s !! c = Some x -> exps (<[c := z]> s) = exp z + (exps s - exp x).
Proof.
  revert c; induction s as [|a s IH]; intros c H; [discriminate|]. destruct c as [|c]; cbn in H.
  - injection H as ->. change (<[0%nat := z]> (x :: s)) with (z :: s). rewrite !exps_cons. ring.
  - change (<[S c := z]> (a :: s)) with (a :: <[c := z]> s). rewrite !exps_cons, (IH c H). ring.
Qed.
Lemma exps_deriv s c x : s !! c = Some x -> derivable_pt_lim (fun z => exps (<[c := z]> s)) x (exp x).
Proof.
  intros H. eapply dl_ext; [intros z; symmetry; apply (exps_insert s c x z H)|reflexivity|]. eapply dl_add; [apply derivable_pt_lim_exp|apply dl_const|ring].
Qed.
Lemma insert_same (s : list R) c x : s !! c = Some x -> <[c := x]> s = s.
Proof. apply list_insert_id. Qed.
Lemma softmax_deriv s c x : s !! c = Some x -> derivable_pt_lim (fun z => nth c (softmax (<[c := z]> s)) 0) x (exp x / exps s * (1 - exp x / exps s)).
Proof.
  intros H. assert (L : (c < length s)%nat) by now apply lookup_lt_Some in H. assert (N : s <> []) by (intros ->; discriminate).
  eapply dl_ext with (f := fun z => exp z / exps (<[c := z]> s)).
  { intros z. symmetry. erewrite nth_lookup_Some; [reflexivity|]. apply softmax_lookup. apply list_lookup_insert. exact L. }
  { reflexivity. }
  pose proof (exps_pos s N). eapply dl_div; [apply derivable_pt_lim_exp|apply (exps_deriv s c x H)|rewrite insert_same by exact H; lra|]. rewrite insert_same by exact H. unfold Rsqr. field. lra.
Qed.
Lemma sce_deriv s y c x : (y < length s)%nat -> s !! c = Some x -> derivable_pt_lim (fun z => sce_row y (softmax (<[c := z]> s))) x (nth c (sce_grad y (softmax s)) 0).
Proof.
  intros Hy H. assert (L : (c < length s)%nat) by now apply lookup_lt_Some in H. assert (N : s <> []) by (intros ->; discriminate). pose proof (exps_pos s N) as P.
  destruct (lookup_lt_is_Some_2 s y Hy) as [xy Hxy].
  assert (NE : forall z, <[c := z]> s <> []) by (intros z E; apply (f_equal length) in E; rewrite insert_length in E; cbn in E; lia).
  set (sy := fun z => if decide (y = c) then z else xy).
  eapply dl_ext with (f := fun z => ln (exps (<[c := z]> s)) - sy z).
  { intros z. unfold sce_row. erewrite nth_lookup_Some; [|apply softmax_lookup; instantiate (1 := sy z)].
    - pose proof (exps_pos _ (NE z)). unfold Rdiv. rewrite ln_mult; [|apply exp_pos|now apply Rinv_0_lt_compat]. rewrite ln_exp, ln_Rinv by assumption. ring.
    - unfold sy. destruct (decide (y = c)) as [->|D]; [now apply list_lookup_insert|]. rewrite list_lookup_insert_ne by congruence. exact Hxy. }
  { reflexivity. }
  eapply dl_sub; [eapply dl_ln; [rewrite insert_same by exact H; exact P|exact (exps_deriv s c x H)|reflexivity]|instantiate (1 := if decide (y = c) then 1 else 0)|].
  - unfold sy. destruct (decide (y = c)); [apply dl_id|apply dl_const].
  - rewrite insert_same by exact H. unfold sce_grad. rewrite (nth_lookup_Some (softmax s) y 0 (exp xy / exps s)) by now apply softmax_lookup.
    destruct (decide (y = c)) as [->|D].
    + assert (xy = x) by congruence. subst xy. erewrite nth_lookup_Some; [|apply list_lookup_insert; rewrite softmax_length; exact L]. field. lra.
    + erewrite nth_lookup_Some; [|rewrite list_lookup_insert_ne by exact D; apply softmax_lookup; exact H]. field. lra.
Qed.
Lemma sce_deriv2 s y c x : (y < length s)%nat -> s !! c = Some x ->
  derivable_pt_lim (fun z => nth c (sce_grad y (softmax (<[c := z]> s))) 0) x (nth c (sce_hess y (softmax s)) 0).
Proof.
  intros Hy H. assert (L : (c < length s)%nat) by now apply lookup_lt_Some in H.
  eapply dl_ext with (f := fun z => nth c (softmax (<[c := z]> s)) 0 - if decide (y = c) then 1 else 0).
  { intros z. unfold sce_grad. set (p := softmax _). assert (Lp : length p = length s) by (unfold p; now rewrite softmax_length, insert_length).
    destruct (lookup_lt_is_Some_2 p c) as [v Hv]; [lia|]. destruct (decide (y = c)) as [->|D].
    - erewrite (nth_lookup_Some (<[c := _]> p)); [reflexivity|]. apply list_lookup_insert. lia.
    - rewrite (nth_lookup_Some p c 0 v Hv). erewrite nth_lookup_Some; [|rewrite list_lookup_insert_ne by exact D; exact Hv]. ring. }
  { reflexivity. }
  eapply dl_sub; [apply (softmax_deriv s c x H)|apply dl_const|]. unfold sce_hess.
  erewrite nth_lookup_Some; [|rewrite rmap_lookup, (softmax_lookup s c x H); reflexivity]. ring.
Qed.

(** ** Regression losses *)
Lemma lse_deriv y p : derivable_pt_lim (lse_row y) p (lse_grad y p).
Proof.
  unfold lse_row, lse_grad. assert (D : derivable_pt_lim (fun z => y - z) p (-1)) by (eapply dl_sub; [apply dl_const|apply dl_id|ring]). eapply dl_mul; [exact D|exact D|]. ring.
Qed.
Lemma lse_deriv2 y p : derivable_pt_lim (lse_grad y) p (lse_hess y p).
Proof. unfold lse_grad, lse_hess. eapply dl_scal; [apply dl_shift|ring]. Qed.

Lemma huber_arg delta d : delta <> 0 -> 0 < 1 + d * d / delta ^ 2.
Proof.
  intros N. assert (0 < delta ^ 2) by (rewrite <- Rsqr_pow2; now apply Rsqr_pos_lt). assert (0 <= d * d / delta ^ 2); [|lra]. apply Rmult_le_pos; [nra|]. left. now apply Rinv_0_lt_compat.
Qed.
Lemma huber_u delta y p : delta <> 0 -> derivable_pt_lim (fun z => 1 + (z - y) * (z - y) / delta ^ 2) p (2 * (p - y) / delta ^ 2).
Proof.
  intros N. assert (D : delta ^ 2 <> 0) by now apply pow_nonzero.
  eapply dl_add; [apply dl_const|eapply dl_div; [eapply dl_mul; [apply dl_shift|apply dl_shift|reflexivity]|apply dl_const|exact D|reflexivity]|]. unfold Rsqr. field. exact N.
Qed.
Lemma huber_sqrt delta y p : delta <> 0 -> derivable_pt_lim (fun z => sqrt (1 + (z - y) * (z - y) / delta ^ 2)) p ((p - y) / delta ^ 2 / sqrt (1 + (p - y) * (p - y) / delta ^ 2)).
Proof.
  intros N. pose proof (huber_arg delta (p - y) N) as P. eapply dl_comp; [exact (huber_u delta y p N)|now apply derivable_pt_lim_sqrt|]. pose proof (sqrt_lt_R0 _ P). field. split; [exact N|lra].
Qed.
Lemma huber_deriv delta y p : delta <> 0 -> derivable_pt_lim (huber_row delta y) p (huber_grad delta y p).
Proof.
  intros N. eapply dl_ext with (f := fun z => delta ^ 2 * (sqrt (1 + (z - y) * (z - y) / delta ^ 2) - 1)).
  { intros z. unfold huber_row. do 4 f_equal. field. exact N. }
  { reflexivity. }
  eapply dl_scal; [eapply dl_sub; [exact (huber_sqrt delta y p N)|apply dl_const|reflexivity]|]. unfold huber_grad. cbv zeta. pose proof (sqrt_lt_R0 _ (huber_arg delta (p - y) N)). field. split; [exact N|lra].
Qed.
Lemma Rpower_15 x : 0 < x -> Rpower x (15 / 10) = x * sqrt x.
Proof. intros P. replace (15 / 10) with (1 + / 2) by field. rewrite Rpower_plus, Rpower_1, Rpower_sqrt by exact P. reflexivity. Qed.
Lemma huber_deriv2 delta y p : delta <> 0 -> derivable_pt_lim (huber_grad delta y) p (huber_hess delta y p).
Proof.
  intros N. pose proof (huber_arg delta (p - y) N) as P. pose proof (sqrt_lt_R0 _ P) as Q. unfold huber_grad, huber_hess. cbv zeta.
  eapply dl_div; [apply dl_shift|exact (huber_sqrt delta y p N)|lra|]. rewrite Rpower_15 by exact P. set (u := 1 + (p - y) * (p - y) / delta ^ 2) in *.
  assert (SQ : sqrt u * sqrt u = u) by (apply sqrt_sqrt; lra). assert (EU : (p - y) * (p - y) / delta ^ 2 = sqrt u * sqrt u - 1) by (rewrite SQ; unfold u; ring).
  unfold Rsqr. set (r := sqrt u) in *. rewrite <- SQ.
  assert (X : 1 * r - (p - y) / delta ^ 2 / r * (p - y) = 1 / r).
  { replace ((p - y) / delta ^ 2 / r * (p - y)) with ((p - y) * (p - y) / delta ^ 2 * / r) by (field; first [split; [exact N|lra]|split; [lra|exact N]]). rewrite EU. field. lra. }
  rewrite X. field. lra.
Qed.

Lemma at_least_zero_ok d : at_least_zero d <> 0 /\ (RFLOAT_ZERO <= Rabs d -> at_least_zero d = d).
Proof.
  unfold at_least_zero, RFLOAT_ZERO. destruct (Rlt_dec _ _) as [L|L]; [split; [|intros; lra]; assert (0 < / 1000000) by (apply Rinv_0_lt_compat; lra); lra|]. split; [|reflexivity].
  intros ->. rewrite Rabs_R0 in L. apply L, Rinv_0_lt_compat. lra.
Qed.

(** Fair loss, for a residual on one side. *)
Lemma fair_side s c y p : 0 < c -> (s = 1 \/ s = -1) -> 0 <= s * (p - y) ->
  derivable_pt_lim (fun z => c * (s * (z - y)) - c ^ 2 * ln (s * (z - y) / c + 1)) p (c * (p - y) / (s * (p - y) + c)).
Proof.
  intros Hc Hs Hp. assert (D : derivable_pt_lim (fun z => s * (z - y)) p s) by (eapply dl_scal; [apply dl_shift|ring]).
  assert (P : 0 < s * (p - y) / c + 1) by (assert (0 <= s * (p - y) / c); [apply Rmult_le_pos; [exact Hp|left; now apply Rinv_0_lt_compat]|lra]).
  eapply dl_sub; [eapply dl_scal; [exact D|reflexivity]|eapply dl_scal; [eapply dl_ln; [exact P|eapply dl_add; [eapply dl_div; [exact D|apply dl_const|lra|reflexivity]|apply dl_const|reflexivity]|reflexivity]|reflexivity]|].
  assert (SS : s * s = 1) by (destruct Hs as [-> | ->]; ring). unfold Rsqr.
  assert (X : / (s * (p - y) / c + 1) * ((s * c - 0 * (s * (p - y))) / (c * c) + 0) = s / (s * (p - y) + c)) by (field; lra). rewrite X.
  apply (Rmult_eq_reg_r (s * (p - y) + c)); [|lra]. unfold Rdiv. rewrite Rmult_assoc, Rinv_l by lra. transitivity (c * (p - y) * (s * s)); [rewrite SS; ring|]. field. lra.
Qed.
Lemma fair_side2 s c y p : 0 < c -> (s = 1 \/ s = -1) -> 0 <= s * (p - y) -> derivable_pt_lim (fun z => c * (z - y) / (s * (z - y) + c)) p (c ^ 2 / (s * (p - y) + c) ^ 2).
Proof.
  intros Hc Hs Hp. eapply dl_div; [eapply dl_scal; [apply dl_shift|reflexivity]|eapply dl_add; [eapply dl_scal; [apply dl_shift|reflexivity]|apply dl_const|reflexivity]|lra|]. unfold Rsqr. field. lra.
Qed.
Lemma fair_cases (f : R -> R) (fs : R -> R -> R) y p l : (forall z, 0 <= z - y -> f z = fs 1 z) -> (forall z, z - y <= 0 -> f z = fs (-1) z) ->
  (0 <= p - y -> derivable_pt_lim (fs 1) p l) -> (p - y <= 0 -> derivable_pt_lim (fs (-1)) p l) -> derivable_pt_lim f p l.
Proof.
  intros E1 E2 D1 D2. destruct (Rtotal_order p y) as [L|[->|L]].
  - apply (dl_local (fs (-1)) f p l (y - p)); [lra| |apply D2; lra]. intros z Hz. symmetry. apply E2. apply Rabs_def2 in Hz. lra.
  - apply (dl_glue f (fs (-1)) (fs 1)); [intros z Hz; apply E2; lra|intros z Hz; apply E1; lra|apply D2; lra|apply D1; lra].
  - apply (dl_local (fs 1) f p l (p - y)); [lra| |apply D1; lra]. intros z Hz. symmetry. apply E1. apply Rabs_def2 in Hz. lra.
Qed.
Lemma Rabs_side z : (0 <= z -> Rabs z = 1 * z) /\ (z <= 0 -> Rabs z = -1 * z).
Proof. split; intros H; [rewrite Rabs_right by lra|rewrite Rabs_left1 by lra]; ring. Qed.
Lemma fair_deriv c y p : 0 < c -> derivable_pt_lim (fair_row c y) p (fair_grad c y p).
Proof.
  intros Hc. apply (fair_cases _ (fun s z => c * (s * (z - y)) - c ^ 2 * ln (s * (z - y) / c + 1)) y).
  - intros z Hz. unfold fair_row. now rewrite (proj1 (Rabs_side _) Hz).
  - intros z Hz. unfold fair_row. now rewrite (proj2 (Rabs_side _) Hz).
  - intros H. unfold fair_grad. cbv zeta. rewrite (proj1 (Rabs_side _) H). apply fair_side; [exact Hc|auto|lra].
  - intros H. unfold fair_grad. cbv zeta. rewrite (proj2 (Rabs_side _) H). apply fair_side; [exact Hc|auto|lra].
Qed.
Lemma fair_deriv2 c y p : 0 < c -> derivable_pt_lim (fair_grad c y) p (fair_hess c y p).
Proof.
  intros Hc. apply (fair_cases _ (fun s z => c * (z - y) / (s * (z - y) + c)) y).
  - intros z Hz. unfold fair_grad. cbv zeta. now rewrite (proj1 (Rabs_side _) Hz).
  - intros z Hz. unfold fair_grad. cbv zeta. now rewrite (proj2 (Rabs_side _) Hz).
  - intros H. unfold fair_hess. cbv zeta. rewrite (proj1 (Rabs_side _) H). apply fair_side2; [exact Hc|auto|lra].
  - intros H. unfold fair_hess. cbv zeta. rewrite (proj2 (Rabs_side _) H). apply fair_side2; [exact Hc|auto|lra].
Qed.

Lemma cosh_pos x : 0 < cosh x.
Proof. unfold cosh. pose proof (exp_pos x). pose proof (exp_pos (- x)). lra. Qed.
Lemma log_cosh_deriv y p : derivable_pt_lim (log_cosh_row y) p (log_cosh_grad y p).
Proof.
  unfold log_cosh_row, log_cosh_grad. pose proof (cosh_pos (p - y)). eapply dl_ln; [assumption|eapply dl_comp; [apply dl_shift|apply derivable_pt_lim_cosh|reflexivity]|]. unfold tanh. field. lra.
Qed.
Lemma log_cosh_deriv2 y p : derivable_pt_lim (log_cosh_grad y) p (log_cosh_hess y p).
Proof.
  unfold log_cosh_grad, log_cosh_hess. pose proof (cosh_pos (p - y)).
  eapply dl_ext with (f := fun z => sinh (z - y) / cosh (z - y)); [reflexivity|reflexivity|].
  eapply dl_div; [eapply dl_comp; [apply dl_shift|apply derivable_pt_lim_sinh|reflexivity]|eapply dl_comp; [apply dl_shift|apply derivable_pt_lim_cosh|reflexivity]|lra|].
  unfold tanh, Rsqr. field. lra.
Qed.

(** ** Least absolute error *)
Lemma FZ_pos : 0 < RFLOAT_ZERO < 1.
Proof. unfold RFLOAT_ZERO. split; [apply Rinv_0_lt_compat; lra|]. rewrite <- Rinv_1. apply Rinv_lt_contravar; lra. Qed.
Lemma lae_array_eq y p : lae_grad_array y p = if Rlt_dec RFLOAT_ZERO (p - y) then 1 else if Rlt_dec (p - y) RFLOAT_ZERO then -1 else 0.
Proof.
  unfold lae_grad_array. cbv zeta. pose proof FZ_pos. destruct (Rlt_dec RFLOAT_ZERO (p - y)).
  - destruct (Rlt_dec 1 RFLOAT_ZERO); [lra|]. rewrite Rabs_R1. destruct (Rle_dec 1 RFLOAT_ZERO); [lra|reflexivity].
  - destruct (Rlt_dec (p - y) RFLOAT_ZERO).
    + rewrite Rabs_left by lra. destruct (Rle_dec _ _); [lra|reflexivity].
    + rewrite Rabs_right by lra. destruct (Rle_dec _ _); [reflexivity|lra].
Qed.
Lemma lae_deriv y p : p - y < 0 \/ RFLOAT_ZERO < p - y -> derivable_pt_lim (lae_row y) p (lae_grad_array y p).
Proof.
  intros H. pose proof FZ_pos. rewrite lae_array_eq. destruct H as [H|H].
  - destruct (Rlt_dec _ _); [lra|]. destruct (Rlt_dec _ _); [|lra]. apply (dl_local (fun z => y - z) _ p _ (y - p)); [lra| |].
    + intros z Hz. apply Rabs_def2 in Hz. unfold lae_row. now rewrite Rabs_right by lra.
    + eapply dl_sub; [apply dl_const|apply dl_id|ring].
  - destruct (Rlt_dec _ _); [|lra]. apply (dl_local (fun z => z - y) _ p _ (p - y)); [lra| |apply dl_shift].
    intros z Hz. apply Rabs_def2 in Hz. unfold lae_row. rewrite Rabs_left1 by lra. ring.
Qed.

(** ** Tweedie *)
Lemma tweedie_deriv rho y p : rho <> 1 -> rho <> 2 -> RFLOAT_ZERO < p ->
  derivable_pt_lim (tweedie_row rho y) p ((y * exp (1 - rho) / (rho - 1) + exp (2 - rho) / (2 - rho)) / p).
Proof.
  intros N1 N2 P. pose proof FZ_pos.
  apply (dl_local (fun z => - y * exp (1 - rho) / (1 - rho) * ln z + exp (2 - rho) / (2 - rho) * ln z) _ p _ (p - RFLOAT_ZERO)); [lra| |].
  - intros z Hz. apply Rabs_def2 in Hz. unfold tweedie_row. rewrite Rmax_left, Rmax_right by lra. field. lra.
  - eapply dl_add; [eapply dl_scal; [eapply dl_ln; [|apply dl_id|reflexivity]|reflexivity]|eapply dl_scal; [eapply dl_ln; [|apply dl_id|reflexivity]|reflexivity]|]; try lra. field. lra.
Qed.

(** ** compute_loss *)
Lemma reduce_mean (l : list R) : forall acc, fold_left (fun acc v => match acc with None => v | Some _ => (fun a b : option (R * R) => match a, b with Some a, Some b => Some (a.1 + b.1, a.2 + b.2) | _, _ => None end) acc v end)
  (map (fun x => Some (x, 1)) l) (Some acc) = Some (acc.1 + rsum l, acc.2 + INR (length l)).
Proof.
  induction l as [|x l IH]; intros [a n]; cbn [map fold_left rsum foldr length]; [cbn; do 2 f_equal; ring|]. rewrite IH. cbn [fst snd]. do 2 f_equal; [unfold rsum; ring|]. rewrite S_INR. ring.
Qed.
Section Mean.
  Context {K A B : Type} `{EqDecision K} (row : A -> B -> R) (y : dtable K A) (p : dtable K B) (Wy : dt_wf y) (Wp : dt_wf p).
  Lemma mean_loss_ok : (exists k, k ∈ dt_keys y /\ k ∈ dt_keys p) ->
    exists ls : list (K * R), mean_loss row y p = Ok (rsum (map snd ls) / INR (length ls)) /\ NoDup (map fst ls) /\
      forall k x, (k, x) ∈ ls <-> exists a b, (k, a) ∈ dt_data y /\ (k, b) ∈ dt_data p /\ x = row a b.
  Proof.
    intros (k0 & H1 & H2). unfold mean_loss.
    destruct (dt_join_rel (fun a b => Ok (Some (row a b, 1))) (fun _ a b x => x = Some (row a b, 1)) y p Wp) as (t & Et & Wt & KT & Gt). { eauto. }
    rewrite Et. cbn [mbind res_bind]. exists (map (fun kv : K * option (R * R) => (kv.1, match kv.2 with Some x => x.1 | None => 0 end)) (dt_data t)).
    assert (SH : forall kv, kv ∈ dt_data t -> kv.2 = Some (match kv.2 with Some x => x.1 | None => 0 end, 1)).
    { intros [k o] Hk. apply tget_elem in Hk; [|exact Wt]. specialize (Gt k). rewrite Hk in Gt. destruct (tget y k), (tget p k); try contradiction. subst o. reflexivity. }
    assert (VS : map snd (dt_data t) = map (fun x => Some (x, 1)) (map (fun kv : K * option (R * R) => match kv.2 with Some x => x.1 | None => 0 end) (dt_data t))).
    { rewrite map_map. apply map_ext_in. intros kv Hkv. apply SH. now apply elem_of_list_In. }
    rewrite !map_map, map_length. split; [|split].
    - unfold dt_reduce. rewrite VS. destruct (dt_data t) as [|kv l] eqn:E.
      { exfalso. apply tget_is_Some in H1 as [a Ha]. apply tget_is_Some in H2 as [b Hb]. specialize (Gt k0). rewrite Ha, Hb in Gt. unfold tget in Gt. now rewrite E in Gt. }
      cbn [map fold_left]. rewrite reduce_mean. cbn [fst snd]. f_equal. f_equal. rewrite map_length. change (length (kv :: l)) with (S (length l)). rewrite S_INR. ring.
    - cbn. exact Wt.
    - intros k x. split.
      + intros Hx. apply elem_of_list_In, in_map_iff in Hx as ([k' o] & [= -> <-] & Hk). apply elem_of_list_In, tget_elem in Hk; [|exact Wt]. specialize (Gt k). rewrite Hk in Gt.
        destruct (tget y k) as [a|] eqn:Ea; [|contradiction]. destruct (tget p k) as [b|] eqn:Eb; [|contradiction]. subst o. exists a, b. split; [now apply tget_elem|]. split; [now apply tget_elem|reflexivity].
      + intros (a & b & Ha & Hb & ->). apply tget_elem in Ha; [|exact Wy]. apply tget_elem in Hb; [|exact Wp]. specialize (Gt k). rewrite Ha, Hb in Gt. destruct (tget t k) as [o|] eqn:Eo; [|contradiction].
        subst o. apply tget_elem in Eo; [|exact Wt]. apply elem_of_list_In, in_map_iff. eexists. split; [|apply elem_of_list_In; exact Eo]. reflexivity.
  Qed.
  Lemma mean_loss_empty : (forall k, k ∈ dt_keys y -> k ∉ dt_keys p) -> mean_loss row y p = Err TypeError.
  Proof.
    intros N. unfold mean_loss. destruct (dt_join_rel (fun a b => Ok (Some (row a b, 1))) (fun _ a b x => x = Some (row a b, 1)) y p Wp) as (t & Et & Wt & KT & Gt). { eauto. }
    rewrite Et. cbn [mbind res_bind]. unfold dt_reduce. destruct (dt_data t) as [|[k o] l] eqn:E; [reflexivity|]. exfalso. specialize (Gt k).
    assert (X : tget t k = Some o) by (apply tget_elem; [exact Wt|rewrite E; left]). rewrite X in Gt. destruct (tget y k) eqn:Ey; [|contradiction]. destruct (tget p k) eqn:Ep; [|contradiction].
    apply (N k); apply tget_is_Some; eauto.
  Qed.
End Mean.
