(** C51-C53: losses and activations, over the real numbers. *)
From Verif Require Import LossProofs.
Local Open Scope R_scope.

(** ** C51 *)
(** Binary cross entropy of the sigmoid of a score: compute_grad and compute_hess, which are given the probability, are the first
    and second derivative by the score. *)
Theorem C51_sigmoid y s : derivable_pt_lim (fun z => ce_row y (sigmoid z)) s (ce_grad y (sigmoid s)) /\ derivable_pt_lim (fun z => ce_grad y (sigmoid z)) s (ce_hess y (sigmoid s)).
Proof. split; [apply ce_deriv|apply ce_deriv2]. Qed.
(** Cross entropy of the softmax of the scores [s], label [y]: derivatives by the score of class [c]. *)
Theorem C51_softmax s y c x : (y < length s)%nat -> s !! c = Some x ->
  derivable_pt_lim (fun z => sce_row y (softmax (<[c := z]> s))) x (nth c (sce_grad y (softmax s)) 0) /\
  derivable_pt_lim (fun z => nth c (sce_grad y (softmax (<[c := z]> s))) 0) x (nth c (sce_hess y (softmax s)) 0).
Proof. intros Hy H. split; [now apply sce_deriv|now apply sce_deriv2]. Qed.
Theorem C51_lse y p : derivable_pt_lim (lse_row y) p (lse_grad y p) /\ derivable_pt_lim (lse_grad y) p (lse_hess y p).
Proof. split; [apply lse_deriv|apply lse_deriv2]. Qed.
(** Any delta that the constructor is given. *)
Theorem C51_huber delta y p : let d := at_least_zero delta in derivable_pt_lim (huber_row d y) p (huber_grad d y p) /\ derivable_pt_lim (huber_grad d y) p (huber_hess d y p).
Proof. intros d. pose proof (proj1 (at_least_zero_ok delta)) as N. split; [now apply huber_deriv|now apply huber_deriv2]. Qed.
(** At zero residual, too, where the absolute value has no derivative. *)
Theorem C51_fair c y p : 0 <= c -> let d := at_least_zero c in derivable_pt_lim (fair_row d y) p (fair_grad d y p) /\ derivable_pt_lim (fair_grad d y) p (fair_hess d y p).
Proof.
  intros Hc d. assert (P : 0 < d). { unfold d, at_least_zero. pose proof FZ_pos. destruct (Rlt_dec _ _) as [L|L]; [lra|]. rewrite Rabs_right in L by lra. lra. } split; [now apply fair_deriv|now apply fair_deriv2].
Qed.
Theorem C51_log_cosh y p : derivable_pt_lim (log_cosh_row y) p (log_cosh_grad y p) /\ derivable_pt_lim (log_cosh_grad y) p (log_cosh_hess y p).
Proof. split; [apply log_cosh_deriv|apply log_cosh_deriv2]. Qed.
(** compute_loss is the mean of the rows that have both a label and a prediction; without any it raises. *)
Theorem C51_loss {K A B} `{EqDecision K} (row : A -> B -> R) (y : dtable K A) (p : dtable K B) : NoDup (dt_keys y) -> NoDup (dt_keys p) ->
  ((exists k, k ∈ dt_keys y /\ k ∈ dt_keys p) ->
     exists ls : list (K * R), mean_loss row y p = Ok (rsum (map snd ls) / INR (length ls)) /\ NoDup (map fst ls) /\
       forall k x, (k, x) ∈ ls <-> exists a b, (k, a) ∈ dt_data y /\ (k, b) ∈ dt_data p /\ x = row a b) /\
  ((forall k, k ∈ dt_keys y -> k ∉ dt_keys p) -> mean_loss row y p = Err TypeError).
Proof. intros Wy Wp. split; [exact (mean_loss_ok row y p Wy Wp)|exact (mean_loss_empty row y p Wp)]. Qed.
Print Assumptions C51_sigmoid.
Print Assumptions C51_softmax.
Print Assumptions C51_lse.
Print Assumptions C51_huber.
Print Assumptions C51_fair.
Print Assumptions C51_log_cosh.
Print Assumptions C51_loss.

(** Examples: equal scores of two classes; the Fair loss at zero residual; a table of two rows. *)
Example C51_softmax_ex : nth 0 (sce_grad 0 (softmax [0; 0])) 0 = - (1 / 2) /\ nth 1 (sce_grad 0 (softmax [0; 0])) 0 = 1 / 2 /\ nth 1 (sce_hess 0 (softmax [0; 0])) 0 = 1 / 4.
Proof. rewrite softmax_eq. unfold exps. cbn. rewrite exp_0. lra. Qed.
Example C51_fair_ex : fair_grad 2 1 1 = 0 /\ fair_hess 2 1 1 = 1 /\ fair_grad 2 1 3 = 1.
Proof. unfold fair_grad, fair_hess. cbv zeta. replace (1 - 1) with 0 by ring. rewrite Rabs_R0. replace (3 - 1) with 2 by ring. rewrite Rabs_right by lra. lra. Qed.
Example C51_huber_ex : at_least_zero 0 = RFLOAT_ZERO /\ at_least_zero 1 = 1 /\ huber_grad 1 0 0 = 0 /\ huber_hess 1 0 0 = 1.
Proof.
  split; [unfold at_least_zero; rewrite Rabs_R0; destruct (Rlt_dec _ _); [reflexivity|exfalso; pose proof FZ_pos; lra]|].
  split; [apply at_least_zero_ok; rewrite Rabs_R1; pose proof FZ_pos; lra|]. unfold huber_grad, huber_hess. cbv zeta. rewrite Rpower_15 by (field_simplify; lra).
  replace (1 + (0 - 0) * (0 - 0) / 1 ^ 2) with 1 by field. rewrite sqrt_1. lra.
Qed.
Example C51_loss_ex : mean_loss lse_row (DT [(1%nat, 1); (2%nat, 5); (3%nat, 0)]) (DT [(2%nat, 3); (1%nat, 1)]) = Ok ((4 + 0) / (1 + 1)).
Proof. unfold mean_loss, lse_row. cbn. apply (f_equal Ok). cbn [fst snd]. lra. Qed.

(** ** C52 *)
(** The Tweedie gradient is not the derivative of the Tweedie loss, nor its hessian that of the gradient. *)
Theorem C52_tweedie_refuted : exists rho y p, 1 < rho < 2 /\ 0 < y /\ RFLOAT_ZERO < p /\
  ~ derivable_pt_lim (tweedie_row rho y) p (tweedie_grad rho y p) /\ ~ derivable_pt_lim (tweedie_grad rho y) p (tweedie_hess rho y p).
Proof.
  exists (3 / 2), 2, 1. pose proof FZ_pos. split; [lra|]. split; [lra|]. split; [lra|]. pose proof (exp_pos (1 - 3 / 2)). pose proof (exp_pos (2 - 3 / 2)). split.
  - intros D. pose proof (uniqueness_limite _ _ _ _ D (tweedie_deriv (3 / 2) 2 1 ltac:(lra) ltac:(lra) ltac:(lra))) as E. unfold tweedie_grad in E. set (a := exp (1 - 3 / 2)) in *. set (b := exp (2 - 3 / 2)) in *. lra.
  - intros D. assert (D' : derivable_pt_lim (tweedie_grad (3 / 2) 2) 1 (-2 * exp (1 - 3 / 2) + exp (2 - 3 / 2))).
    { unfold tweedie_grad. eapply dl_add; [eapply dl_scal; [apply dl_id|reflexivity]|eapply dl_scal; [apply dl_id|reflexivity]|]. ring. }
    pose proof (uniqueness_limite _ _ _ _ D D') as E. unfold tweedie_hess in E.
    assert (E1 : exp (2 - 3 / 2) = exp (1 - 3 / 2) * exp 1) by (rewrite <- exp_plus; f_equal; field).
    assert (L3 : exp 1 <= 3) by exact exp_le_3. set (a := exp (1 - 3 / 2)) in *. set (b := exp (2 - 3 / 2)) in *. assert (b = 6 * a) by lra. nra.
Qed.
(** For a label above e it even has the wrong sign everywhere. *)
Theorem C52_tweedie_sign rho y p l : 1 < rho < 2 -> exp 1 < y -> RFLOAT_ZERO < p -> derivable_pt_lim (tweedie_row rho y) p l -> 0 < l /\ tweedie_grad rho y p < 0.
Proof.
  intros R Y P D. pose proof FZ_pos. pose proof (exp_pos (1 - rho)). pose proof (exp_pos (2 - rho)). pose proof (exp_pos 1). split.
  - rewrite (uniqueness_limite _ _ _ _ D (tweedie_deriv rho y p ltac:(lra) ltac:(lra) P)). apply Rdiv_lt_0_compat; [|lra]. apply Rplus_lt_0_compat; [apply Rdiv_lt_0_compat; [nra|lra]|apply Rdiv_lt_0_compat; lra].
  - unfold tweedie_grad. replace (exp (2 - rho)) with (exp (1 - rho) * exp 1) by (rewrite <- exp_plus; f_equal; ring).
    replace (- y * exp (1 - rho) * p + exp (1 - rho) * exp 1 * p) with (- (exp (1 - rho) * p * (y - exp 1))) by ring. assert (0 < exp (1 - rho) * p * (y - exp 1)); [|lra]. apply Rmult_lt_0_compat; [apply Rmult_lt_0_compat; lra|lra].
Qed.
(** The gradient of the absolute error is -1 for every residual p - y from 0 to below FLOAT_ZERO (1e-6), for arrays and for numbers.
    It is 0 only at FLOAT_ZERO itself. *)
Theorem C52_lae y p : 0 <= p - y < RFLOAT_ZERO -> lae_grad_array y p = -1 /\ lae_grad_scalar y p = -1.
Proof.
  intros H. rewrite lae_array_eq. unfold lae_grad_scalar. cbv zeta. destruct (Rlt_dec RFLOAT_ZERO (p - y)); [lra|]. destruct (Rlt_dec (p - y) RFLOAT_ZERO); [split; reflexivity|lra].
Qed.
Theorem C52_lae_refuted : exists y, lae_grad_array y y = -1 /\ exists p, y < p /\ lae_grad_array y p = -1 /\ derivable_pt_lim (lae_row y) p 1.
Proof.
  pose proof FZ_pos. exists 0. split; [apply C52_lae; lra|]. exists (RFLOAT_ZERO / 2). split; [lra|]. split; [apply C52_lae; lra|].
  apply (dl_local (fun z => z - 0) _ _ _ (RFLOAT_ZERO / 2)); [lra| |apply dl_shift]. intros z Hz. apply Rabs_def2 in Hz. unfold lae_row. rewrite Rabs_left1 by lra. ring.
Qed.
(** Outside that interval it is the derivative. *)
Theorem C52_lae_else y p : p - y < 0 \/ RFLOAT_ZERO < p - y -> derivable_pt_lim (lae_row y) p (lae_grad_array y p).
Proof. exact (lae_deriv y p). Qed.
Print Assumptions C52_tweedie_refuted.
Print Assumptions C52_tweedie_sign.
Print Assumptions C52_lae.
Print Assumptions C52_lae_refuted.
Print Assumptions C52_lae_else.
Example C52_ex : 1 < 3 / 2 < 2 /\ exp 1 < 4 /\ RFLOAT_ZERO < 1 /\ 0 <= 0 - 0 < RFLOAT_ZERO /\ RFLOAT_ZERO < 2 - 1.
Proof. pose proof FZ_pos. pose proof exp_le_3. lra. Qed.

(** ** C53 *)
Theorem C53_sigmoid x : sigmoid x = 1 / (1 + exp (- x)) /\ 0 < sigmoid x < 1 /\ sigmoid (- x) = 1 - sigmoid x /\ (forall y, x < y -> sigmoid x < sigmoid y) /\
  derivable_pt_lim sigmoid x (sigmoid x * (1 - sigmoid x)).
Proof.
  split; [rewrite sigmoid_eq; unfold Rdiv; ring|]. split; [apply sigmoid_01|]. split; [apply sigmoid_opp|]. split; [intros y; apply sigmoid_incr|apply sigmoid_deriv].
Qed.
(** For every non-empty vector of scores. *)
Theorem C53_softmax s : s <> [] -> length (softmax s) = length s /\ rsum (softmax s) = 1 /\
  (forall i p, softmax s !! i = Some p -> 0 < p <= 1 /\ ((1 < length s)%nat -> p < 1)) /\
  (forall c, softmax (map (fun x => x + c) s) = softmax s) /\
  (forall i j x y p q, s !! i = Some x -> s !! j = Some y -> softmax s !! i = Some p -> softmax s !! j = Some q -> (x < y <-> p < q)).
Proof.
  intros N. pose proof (exps_pos s N) as P. split; [apply softmax_length|]. split; [now apply softmax_sum|]. split; [|split].
  - intros i p Hp. destruct (lookup_lt_is_Some_2 s i) as [x Hx]; [apply lookup_lt_Some in Hp; now rewrite softmax_length in Hp|]. rewrite (softmax_lookup s i x Hx) in Hp. injection Hp as <-.
    pose proof (exp_pos x). pose proof (exps_le s i x Hx). split; [split; [now apply Rdiv_lt_0_compat|]|].
    + apply (Rmult_le_reg_r (exps s)); [exact P|]. unfold Rdiv. rewrite Rmult_assoc, Rinv_l by lra. lra.
    + intros L. pose proof (exps_lt s i x Hx L). apply (Rmult_lt_reg_r (exps s)); [exact P|]. unfold Rdiv. rewrite Rmult_assoc, Rinv_l by lra. lra.
  - intros c. rewrite !softmax_eq, map_map. apply map_ext. intros x. assert (E : exps (map (fun x => x + c) s) = exp c * exps s).
    { unfold exps. rewrite <- rsum_scal, !map_map. f_equal. apply map_ext. intros v. rewrite exp_plus. ring. }
    rewrite E, exp_plus. pose proof (exp_pos c). field. lra.
  - intros i j x y p q Hx Hy Hp Hq. rewrite (softmax_lookup s i x Hx) in Hp. rewrite (softmax_lookup s j y Hy) in Hq. injection Hp as <-. injection Hq as <-. split.
    + intros L. apply Rmult_lt_compat_r; [now apply Rinv_0_lt_compat|]. now apply exp_increasing.
    + intros L. apply exp_lt_inv. apply (Rmult_lt_reg_r (/ exps s)); [now apply Rinv_0_lt_compat|]. exact L.
Qed.
(** With two classes softmax is the sigmoid of the difference. *)
Theorem C53_two a b : softmax [a; b] = [sigmoid (a - b); sigmoid (b - a)].
Proof.
  rewrite softmax_eq. unfold exps. cbn [map rsum foldr]. rewrite !sigmoid_eq. pose proof (exp_pos a). pose proof (exp_pos b). replace (- (a - b)) with (b + - a) by ring. replace (- (b - a)) with (a + - b) by ring.
  rewrite !exp_plus, !exp_Ropp. f_equal; [field; lra|]. f_equal. field. lra.
Qed.
(** The other activations. *)
Theorem C53_others x : log_logistic x = ln (sigmoid x) /\ derivable_pt_lim softplus x (sigmoid x) /\ 0 <= hard_sigmoid x <= 1 /\ -1 < softsign x < 1.
Proof. split; [apply log_logistic_eq|]. split; [apply softplus_deriv|]. split; [apply hard_sigmoid_01|apply softsign_1]. Qed.
(** hard_sigmoid is the chord through (-5/2, 0) and (5/2, 1), flat outside. *)
Theorem C53_hard_sigmoid x : (x <= -5 / 2 -> hard_sigmoid x = 0) /\ (5 / 2 <= x -> hard_sigmoid x = 1) /\ (-5 / 2 <= x <= 5 / 2 -> hard_sigmoid x = (x + 5 / 2) / 5) /\ hard_sigmoid x + hard_sigmoid (- x) = 1.
Proof. unfold hard_sigmoid, Rmin, Rmax. repeat split; intros; repeat destruct (Rle_dec _ _); lra. Qed.
(** softsign is odd and increasing, has the sign of its argument and absolute value |x| / (1 + |x|). *)
Theorem C53_softsign x : softsign (- x) = - softsign x /\ (0 <= x -> softsign x = 1 - 1 / (1 + x)) /\ forall z, x < z -> softsign x < softsign z.
Proof.
  assert (N : forall x, 0 <= x -> softsign x = 1 - 1 / (1 + x)). { clear. intros x Hx. unfold softsign. rewrite Rabs_right by lra. field. lra. }
  assert (O : forall x, softsign (- x) = - softsign x). { clear. intros x. unfold softsign. rewrite Rabs_Ropp. pose proof (Rabs_pos x). field. lra. }
  assert (M : forall x z, 0 <= x -> x < z -> softsign x < softsign z).
  { intros a b Ha Hb. rewrite !N by lra. assert (1 / (1 + b) < 1 / (1 + a)); [|lra]. unfold Rdiv. rewrite !Rmult_1_l. apply Rinv_lt_contravar; [apply Rmult_lt_0_compat; lra|lra]. }
  split; [apply O|]. split; [apply N|]. intros z Hz. destruct (Rle_dec 0 x) as [H0|H0]; [now apply M|]. destruct (Rle_dec z 0) as [H1|H1].
  - assert (X : softsign (- z) < softsign (- x)) by (apply M; lra). rewrite !O in X. lra.
  - assert (Z0 : softsign 0 = 0) by (rewrite N by lra; lra). assert (X1 : softsign 0 < softsign z) by (apply M; lra). assert (X2 : softsign 0 < softsign (- x)) by (apply M; lra). rewrite O in X2. lra.
Qed.
(** softplus is a smooth maximum of 0 and its argument. *)
Theorem C53_softplus x : softplus x - softplus (- x) = x /\ Rmax 0 x < softplus x <= Rmax 0 x + ln 2.
Proof.
  unfold softplus. assert (D : forall x, ln (1 + exp x) = x + ln (1 + exp (- x))).
  { clear. intros x. rewrite <- (ln_exp x) at 2. pose proof (exp_pos x). pose proof (exp_pos (- x)). rewrite <- ln_mult by lra. f_equal. rewrite Rmult_plus_distr_l, Rmult_1_r, <- exp_plus, Rplus_opp_r, exp_0. ring. }
  assert (B : forall x, x <= 0 -> 0 < ln (1 + exp x) <= ln 2).
  { clear. intros x Hx. pose proof (exp_pos x). split; [rewrite <- ln_1; apply ln_increasing; lra|]. assert (exp x <= 1). { rewrite <- exp_0. destruct Hx as [Hx| ->]; [left; now apply exp_increasing|lra]. }
    destruct (Req_dec (exp x) 1) as [E|E]; [rewrite E; right; f_equal; lra|left; apply ln_increasing; lra]. }
  split; [rewrite (D x); ring|]. unfold Rmax. destruct (Rle_dec 0 x) as [H|H].
  - rewrite (D x). pose proof (B (- x) ltac:(lra)). lra.
  - pose proof (B x ltac:(lra)). lra.
Qed.
Print Assumptions C53_sigmoid.
Print Assumptions C53_softmax.
Print Assumptions C53_two.
Print Assumptions C53_others.
Print Assumptions C53_hard_sigmoid.
Print Assumptions C53_softsign.
Print Assumptions C53_softplus.
Example C53_ex : sigmoid 0 = 1 / 2 /\ softmax [3; 3; 3; 3] = [1 / 4; 1 / 4; 1 / 4; 1 / 4].
Proof.
  split; [rewrite (proj1 (C53_sigmoid 0)), Ropp_0, exp_0; lra|]. rewrite softmax_eq. unfold exps. cbn [map rsum foldr]. pose proof (exp_pos 3). assert (E : exp 3 / (exp 3 + (exp 3 + (exp 3 + (exp 3 + 0)))) = 1 / 4) by (field; lra). now rewrite E.
Qed.
