(** C68: training with the encryption calculator in the modes strict, fast and balance. *)
From Verif Require Import ModeMain EncryptModeSpec P_Tree P_Boost.
Local Open Scope nat_scope.

(** What Paillier needs, besides [ready]: [fresh] are the random numbers of encrypting gradients, [rr] those of gains; [trees] is
    the number of trees. *)
Record mode_ok {K} (U : list K) (sk : privkey) (fresh : nat -> K -> nat -> Z) (rr : nat -> nat -> nat -> Z) (lam mi : Qc) (d trees : nat) : Prop := {
  mo_key : keypair (sk_n sk) sk;
  mo_big : (2 ^ 1000 <= sk_n sk)%Z;
  mo_fresh : forall j k i, Z.gcd (fresh j k i) (sk_n sk) = 1%Z;
  mo_rr : forall j i nid, Z.gcd (rr j i nid) (sk_n sk) = 1%Z;
  mo_rows : (zq 16 * (zq (Z.of_nat (length U)) * zq (Z.of_nat (length U))) <= lam * zq (2 ^ 29))%Qc /\ (6 * Z.of_nat (length U) <= 2 ^ 53)%Z;
  mo_levels : (zq ((Z.of_nat d + 1) * (Z.of_nat trees + 1)) * zq (Z.of_nat (length U)) <= lam * zq (2 ^ 46))%Qc;
  mo_trees : ((Z.of_nat d + 1) * (Z.of_nat trees + 1) <= 2 ^ 40)%Z;
  mo_mi : (qabs (mi - FLOAT_ZERO) <= zq (2 ^ 29))%Qc }.

Section Mode.
  Context {K : Type} `{EqDecision K} (rnd : Qc -> Qc) (pred : loss_kind -> list Qc -> list Qc) (lossf : loss_kind -> dtable K nat -> dtable K (list Qc) -> Qc).
  Context (U : list K) (nh : nat) (gcfg : pcfg K) (hcfg : nat -> pcfg K) (guest : party K) (hosts : list (party K)) (sname : nat -> site) (it : imp_type).
  Context (P : bparams) (kind : loss_kind) (dim : nat) (y : dtable K nat) (lab : K -> nat).
  Context (gdraw : nat -> nat -> nat -> list nat) (hdraw : nat -> nat -> nat -> nat -> list nat) (d : nat).
  Context (sk : privkey) (fresh : nat -> K -> nat -> Z) (rr : nat -> nat -> nat -> Z) (mode : em_mode) (rate : Qc) (u : nat -> Qc).
  Context (graw : dtable K (dict nat Qc)) (hraw : nat -> dtable K (dict nat Qc)).
  Local Notation lam := (reg_lambda (c_par gcfg)).
  Local Notation mi := (min_impurity (c_par gcfg)).
  Local Notation ready := (ready rnd pred U nh gcfg hcfg guest hosts sname P kind dim y lab gdraw hdraw d).
  Local Notation mok := (mode_ok U sk fresh rr lam mi d (b_rounds P * dim)).
  Local Notation train m := (mode_train_sys rnd pred lossf nh gcfg hcfg sname it P kind dim y gdraw hdraw sk fresh rr m rate u).
  Local Notation guestj j := (with_valid guest (gvalid gcfg P gdraw j)).
  Local Notation hostsj j := (hosts_with hosts (hvalid hcfg P hdraw j)).
  Local Notation trained := (trained rnd pred lossf U nh gcfg hcfg guest hosts sname it P kind dim y lab d).
  Local Notation boosted grown T := (boosted U guest hosts lab kind dim rnd (b_lr P) pred grown T).
  Local Notation weight T := (wt guest hosts T).
  Local Notation off s := (zq (Z.of_nat s + 1) * p2 (-47))%Qc.
  (** Tree [j] as the centralised learner grows it, where for the hosts' features the gradients of every row are off by at most
      2^-47 for each tree since the gradients were last encrypted anew. *)
  Local Notation drifted := (fun j vg vh t => exists s ug uh, age mode rate u j s /\
    (forall k, k ∈ U -> (qabs (ug k - vg k) <= off s)%Qc /\ (qabs (uh k - vh k) <= off s)%Qc) /\
    learn U lam mi (guestj j) (hostsj j) vg vh ug uh fround (prt (sk_n sk)) d = Ok t).

  Lemma mtrained (RD : ready) (Hit : it <> IOther) (MK : mok) : exists T st hs, always (train mode) (done st hs) /\ trained drifted T st hs.
  Proof.
    destruct MK as [A B C D [E E'] F G H']. exact (mode_trained rnd pred lossf U nh gcfg hcfg guest hosts sname it Hit P kind dim y lab gdraw hdraw d RD sk fresh rr mode rate u
      (proj1 (keypair_good _ _ A)) B C D E F G E' H').
  Qed.
  Lemma strained (RD : ready) (Hit : it <> IOther) (MK : mok) : exists T st hs, always (train MStrict) (done st hs) /\
    trained (by_values U gcfg hcfg guest hosts P gdraw hdraw d (fun v k => leaf_value (sk_n sk) (v k)) (fun v k => leaf_value (sk_n sk) (v k)) fround (prt (sk_n sk))) T st hs.
  Proof.
    destruct MK as [A B C D [E E'] F G H']. exact (strict_trained rnd pred lossf U nh gcfg hcfg guest hosts sname it Hit P kind dim y lab gdraw hdraw d RD sk fresh rr MStrict rate u
      (proj1 (keypair_good _ _ A)) B C D E F G H' eq_refl).
  Qed.

  (** In every mode and for all draws, training cannot block and ends the same way on every schedule. *)
  Theorem C68_finishes : ready -> it <> IOther -> mok ->
    exists st hs N, length hs = nh /\ forall m s, nsteps step m (train mode) s -> m <= N /\ nsteps step (N - m) s (done st hs).
  Proof.
    intros RD Hit MK. destruct (mtrained RD Hit MK) as (T & st & hs & (N & A) & TR). exists st, hs, N. split; [|exact A].
    exact (proj1 (proj2 (proj2 (trained_counts rnd pred lossf U nh gcfg hcfg guest hosts sname it P kind dim y lab d _ T st hs TR)))).
  Qed.

  (** It ends with the trees of centralised boosting up to the drift, the stored trees stand for them, no row is lost and the
      scores are the sums of the leaf weights. *)
  Theorem C68_trees m st hs : ready -> it <> IOther -> mok -> nsteps step m (train mode) (done st hs) ->
    exists T, boosted drifted T /\ model_of nh gcfg hcfg sname T st hs /\ length T = length (bs_hist st) * dim /\ NoDup (dt_keys (bs_F st)) /\
      forall k f, (k, f) ∈ dt_data (bs_F st) <-> k ∈ U /\ length f = dim /\ forall c, c < dim -> f !! c = Some (add_up rnd (b_lr P) (map (fun r => weight T (r * dim + c) k) (seq 0 (length (bs_hist st))))).
  Proof.
    intros RD Hit MK RUN. destruct (mtrained RD Hit MK) as (T & st' & hs' & A & TR). destruct (always_done _ _ _ _ _ _ A RUN) as [-> ->]. exists T.
    split; [exact (trained_boosted rnd pred lossf U nh gcfg hcfg guest hosts sname it P kind dim y lab d _ T st' hs' TR)|].
    exact (trained_C45 rnd pred lossf U nh gcfg hcfg guest hosts sname it P kind dim y lab gdraw hdraw d RD _ T st' hs' TR).
  Qed.

  (** All parties end with the same number of trees, and the rounds stop as the parameters say. *)
  Theorem C68_rounds m st hs : ready -> it <> IOther -> mok -> nsteps step m (train mode) (done st hs) ->
    (forall i r, hs !! i = Some r -> r.1 = dim /\ length r.2 = length (bs_trees st)) /\ length (bs_trees st) = length (bs_hist st) * dim /\ length hs = nh /\
    exists T, boosted drifted T /\ losses rnd pred lossf U guest hosts P kind dim y T (bs_hist st) /\ stops rnd (b_early P) (b_tol P) (b_rounds P) (bs_hist st).
  Proof.
    intros RD Hit MK RUN. destruct (mtrained RD Hit MK) as (T & st' & hs' & A & TR). destruct (always_done _ _ _ _ _ _ A RUN) as [-> ->].
    destruct (trained_C46 rnd pred lossf U nh gcfg hcfg guest hosts sname it P kind dim y lab d _ T st' hs' TR) as (X1 & X2 & X3 & X4).
    split; [exact X1|]. split; [exact X2|]. split; [exact X3|]. exists T. split; [|exact X4]. exact (trained_boosted rnd pred lossf U nh gcfg hcfg guest hosts sname it P kind dim y lab d _ T st' hs' TR).
  Qed.

  (** Predicting the training rows with the stored trees gives exactly the scores of training, although the hosts' splits were
      found with drifted gradients. *)
  Theorem C68_predict m st hs fuel : ready -> it <> IOther -> mok -> nsteps step m (train mode) (done st hs) -> raw_of gcfg graw -> (forall i, i < nh -> raw_of (hcfg i) (hraw i)) -> d < fuel ->
    exists F N, NoDup (dt_keys F) /\ (forall k v, (k, v) ∈ dt_data F <-> (k, v) ∈ dt_data (bs_F st)) /\
      forall m s, nsteps step m (score_sys rnd nh sname (b_lr P) dim (bs_trees st) hs graw hraw fuel) s -> m <= N /\ nsteps step (N - m) s (done F (repeat tt nh)).
  Proof.
    intros RD Hit MK RUN. destruct (mtrained RD Hit MK) as (T & st' & hs' & A & TR). destruct (always_done _ _ _ _ _ _ A RUN) as [-> ->].
    exact (trained_C45_predict rnd pred lossf U nh gcfg hcfg guest hosts sname it P kind dim y lab gdraw hdraw d graw hraw RD _ T st' hs' fuel TR).
  Qed.

  (** In strict mode the trees are those that C40 and C45 describe, with the encoded gradients themselves and no drift. *)
  Theorem C68_strict m st hs : ready -> it <> IOther -> mok -> nsteps step m (train MStrict) (done st hs) ->
    exists T, boosted (fun j vg vh t => learn U lam mi (guestj j) (hostsj j) vg vh (fun k => leaf_value (sk_n sk) (vg k)) (fun k => leaf_value (sk_n sk) (vh k)) fround (prt (sk_n sk)) d = Ok t) T /\
      model_of nh gcfg hcfg sname T st hs.
  Proof.
    intros RD Hit MK RUN. destruct (strained RD Hit MK) as (T & st' & hs' & A & TR). destruct (always_done _ _ _ _ _ _ A RUN) as [-> ->]. exists T.
    split; [exact (trained_boosted rnd pred lossf U nh gcfg hcfg guest hosts sname it P kind dim y lab d _ T st' hs' TR)|].
    exact (trained_model rnd pred lossf U nh gcfg hcfg guest hosts sname it P kind dim y lab gdraw hdraw d RD _ T st' hs' TR).
  Qed.
End Mode.

(** The number of trees since the last encryption: always 0 in strict mode, the number of the tree in fast mode, and in balance mode
    (where each tree draws a number) the distance to the last draw of at most the rate, or to the first tree. *)
Theorem C68_age rate u j s :
  (age MStrict rate u j s <-> s = 0) /\ (age MFast rate u j s <-> s = j) /\
  (age MBalance rate u j s <-> s <= j /\ (s = j \/ (u (j - s)%nat <= rate + FLOAT_ZERO)%Qc) /\ forall i, j - s < i <= j -> (rate + FLOAT_ZERO < u i)%Qc).
Proof.
  split; [|split].
  - split; [destruct 1 as [|? _|? ? _ X]; [reflexivity..|now destruct X]|]. intros ->. destruct j; [constructor|]. constructor. exact Logic.I.
  - split; [induction 1 as [|? []|? ? ? IH]; [reflexivity|now rewrite IH]|]. intros ->. induction j as [|j IH]; [constructor|]. constructor; [exact IH|]. intros [].
  - split.
    + induction 1 as [|j X|j s A (IH1 & IH2 & IH3) X].
      * split; [lia|]. split; [now left|]. intros i Hi. lia.
      * split; [lia|]. split; [right; rewrite Nat.sub_0_r; exact X|]. intros i Hi. lia.
      * split; [lia|]. split; [destruct IH2 as [->|IH2]; [now left|right; exact IH2]|]. intros i Hi. cbn [Nat.sub] in Hi.
        destruct (decide (i = S j)) as [->|NE]; [apply Qcnot_le_lt; exact X|]. apply IH3. lia.
    + revert s. induction j as [|j IH]; intros s (L & C & A); [assert (s = 0) as -> by lia; constructor|]. destruct s as [|s].
      * apply age_full. destruct C as [C|C]; [discriminate|]. rewrite Nat.sub_0_r in C. exact C.
      * apply age_diff; [apply IH|cbn; apply Qclt_not_le, A; lia]. split; [lia|]. split; [destruct C as [C|C]; [left; lia|right; exact C]|]. intros i Hi. apply A. lia.
Qed.
Print Assumptions C68_finishes.
Print Assumptions C68_trees.
Print Assumptions C68_rounds.
Print Assumptions C68_predict.
Print Assumptions C68_strict.
Print Assumptions C68_age.

(** Examples: the rows of P_Boost meet the conditions; a history of draws in balance mode. *)
Example C68_ex : exists sk, mode_ok (seq 0 4) sk (fun _ _ _ => 1%Z) (fun _ _ _ => 1%Z) (reg_lambda (c_par ex_guest)) (min_impurity (c_par ex_guest)) 2 (b_rounds (bex_par 2 true) * 1).
Proof.
  destruct ex_paillier as (sk & [A B C D E F G H I J L]). exists sk. split; [exact A|exact B|intros; apply Z.gcd_1_l|intros; apply Z.gcd_1_l|split; [exact H|cbn; lia]| |vm_compute; discriminate|exact L].
  vm_compute. discriminate.
Qed.
Definition mex_draw (j : nat) : Qc := match j with 2 => Q2Qc (1 # 10) | _ => Q2Qc (9 # 10) end.
Example C68_age_ex :
  age MBalance (Q2Qc (1 # 2)) mex_draw 0 0 /\ age MBalance (Q2Qc (1 # 2)) mex_draw 1 1 /\ age MBalance (Q2Qc (1 # 2)) mex_draw 2 0 /\ age MBalance (Q2Qc (1 # 2)) mex_draw 3 1.
Proof.
  assert (A0 : age MBalance (Q2Qc (1 # 2)) mex_draw 0 0) by constructor.
  assert (A1 : age MBalance (Q2Qc (1 # 2)) mex_draw 1 1) by (constructor; [exact A0|intros X; now apply X]).
  assert (A2 : age MBalance (Q2Qc (1 # 2)) mex_draw 2 0) by (constructor; vm_compute; discriminate).
  split; [exact A0|]. split; [exact A1|]. split; [exact A2|]. constructor; [exact A2|intros X; now apply X].
Qed.
