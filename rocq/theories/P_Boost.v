(** C45, C46, C48-C50: boosting. Claims about training are stated for plain numbers in place of ciphertexts and for Paillier. *)
From Verif Require Import BoostMain LabelProofs P_Tree P_Predict.
Local Open Scope nat_scope.

(** ** C48 *)
Section Labels.
  Context {K : Type} `{EqDecision K}.
  (** [ls] are the distinct labels of the column. For at most 1000 labels of one type, check_label returns them in increasing
      order, one tree per class and round if there are more than two and else one, and the rank of every row's label. The class
      of that number is the label itself. *)
  Theorem C48_labels (y : dtable K label) ls : NoDup (dt_keys y) -> distinct (dt_values y) ls -> alike ls -> length ls <= 1000 ->
    exists classes y', check_label y = Ok (classes, if decide (2 < length ls) then length ls else 1, if decide (length ls = 2) then Sigmoid else Softmax, y') /\
      (forall i j a b, classes !! i = Some a -> classes !! j = Some b -> (i < j <-> before a b)) /\ distinct (dt_values y) classes /\
      NoDup (dt_keys y') /\ (forall k, k ∈ dt_keys y' <-> k ∈ dt_keys y) /\
      forall k n l, (k, n) ∈ dt_data y' -> (k, l) ∈ dt_data y -> n < length classes /\ classes !! n = Some l /\ has_rank (dt_values y) l n.
  Proof.
    intros W D A L. destruct (check_label_ok y ls W D A L) as (classes & y' & E & I & DC & W' & KS & G). exists classes, y'. split; [|split; [intros i j a b Ha Hb; now apply (increasing_lookup classes)|auto]].
    rewrite E. destruct (Nat.ltb_spec 2 (length ls)), (decide (2 < length ls)), (Nat.eqb_spec (length ls) 2), (decide (length ls = 2)); (reflexivity || lia).
  Qed.
  (** Outside that it raises. *)
  Theorem C48_too_many (y : dtable K label) ls : distinct (dt_values y) ls -> 1000 < length ls -> check_label y = Err ValueError.
  Proof. exact (check_label_many y ls). Qed.
  Theorem C48_mixed (y : dtable K label) ls : distinct (dt_values y) ls -> length ls <= 1000 -> ~ alike ls -> check_label y = Err TypeError.
  Proof. exact (check_label_mixed y ls). Qed.

  (** The predicted label of every row is the class whose probability is largest (the first of them), with two classes the second
      one iff its probability exceeds the threshold. Rows that lack a label or a score are dropped. *)
  Theorem C48_predict classes threshold pred (labels : dtable K label) (F : dtable K (list Qc)) :
    NoDup (dt_keys labels) -> NoDup (dt_keys F) -> classes <> [] ->
    (forall k f, (k, f) ∈ dt_data F -> length (pred f) = if decide (length classes = 2) then 1 else length classes) ->
    exists res, predict_result classes threshold pred labels F = Ok res /\ NoDup (dt_keys res) /\
      forall k l c p, (k, (l, c, p)) ∈ dt_data res <-> (k, l) ∈ dt_data labels /\ exists f i, (k, f) ∈ dt_data F /\ classes !! i = Some c /\
        if decide (length classes = 2) then pred f = [p] /\ (i = 1 <-> (threshold < p)%Qc) /\ i < 2
        else pred f !! i = Some p /\ (forall j x, pred f !! j = Some x -> (x <= p)%Qc) /\ forall j x, j < i -> pred f !! j = Some x -> (x < p)%Qc.
  Proof.
    intros WL WF NE HP. unfold predict_result. destruct (dt_mapValues_rel (fun f => Ok (pred f)) (fun _ f p => p = pred f) F WF) as (ps & Ep & Wp & _ & Gp). { eauto. }
    rewrite Ep. cbn [mbind res_bind].
    pose (R := fun (f : list Qc) (c : label) (p : Qc) => exists i, classes !! i = Some c /\
        if decide (length classes = 2) then f = [p] /\ (i = 1 <-> (threshold < p)%Qc) /\ i < 2
        else f !! i = Some p /\ (forall j x, f !! j = Some x -> (x <= p)%Qc) /\ forall j x, j < i -> f !! j = Some x -> (x < p)%Qc).
    assert (UN : forall f c p c' p', R f c p -> R f c' p' -> c = c' /\ p = p').
    { clear. intros f c p c' p' (i & Hi & H) (i' & Hi' & H'). destruct (decide (length classes = 2)) as [L2|L2].
      - destruct H as (-> & A & B), H' as (EP & A' & B'). injection EP as <-. split; [|reflexivity]. assert (i = i'); [|congruence]. destruct i as [|[|]], i' as [|[|]]; try lia; exfalso; intuition lia.
      - destruct H as (A & B & D), H' as (A' & B' & D'). pose proof (B _ _ A'). pose proof (B' _ _ A). assert (p = p') by (apply Qcle_antisym; assumption). subst p'. split; [|reflexivity].
        destruct (lt_eq_lt_dec i i') as [[L|EE]|L]; [specialize (D' _ _ L A); qlra|subst; congruence|specialize (D _ _ L A'); qlra]. }
    destruct (dt_join_rel (fun l p => r ← predict_class classes threshold p; Ok (l, r.1, r.2)) (fun _ l f o => o.1.1 = l /\ R f o.1.2 o.2) labels ps Wp) as (res & Er & Wr & _ & Gr).
    { intros k l p Hl Hps. specialize (Gp k). rewrite Hps in Gp. destruct (tget F k) as [f|] eqn:Ef; [|contradiction]. subst p. pose proof (HP k f (proj1 (tget_elem F k f WF) Ef)) as LP.
      unfold predict_class. unfold R. destruct (Nat.eqb_spec (length classes) 2) as [L2|L2], (decide (length classes = 2)); try lia.
      - destruct (pred f) as [|x [|]]; try discriminate LP. cbn [list_index lookup list_lookup mbind res_bind].
        destruct classes as [|c0 [|c1 [|]]]; try discriminate L2. destruct (qltb threshold x) eqn:Q; cbn; eexists; (split; [reflexivity|]; cbn; split; [reflexivity|]).
        + apply qltb_true in Q. exists 1. split; [reflexivity|]. split; [reflexivity|]. split; [tauto|lia].
        + apply qltb_false in Q. exists 0. split; [reflexivity|]. split; [reflexivity|]. split; [|lia]. split; [discriminate|]. intros X. exfalso. qlra.
      - destruct (argmax_ok (pred f)) as (i & x & Ea & Hx & B & D); [intros X; rewrite X in LP; destruct classes; [congruence|discriminate]|].
        rewrite Ea. cbn [mbind res_bind]. destruct (lookup_lt_is_Some_2 classes i) as [c Hc]; [apply lookup_lt_Some in Hx; lia|].
        unfold list_index. rewrite Hc. cbn [mbind res_bind]. rewrite Hx. cbn [mbind res_bind fst snd]. eexists. split; [reflexivity|]. cbn. split; [reflexivity|]. exists i. auto. }
    exists res. split; [exact Er|]. split; [exact Wr|]. intros k l c p. rewrite <- !tget_elem by assumption. specialize (Gr k). specialize (Gp k). split.
    - intros Hr. rewrite Hr in Gr. destruct (tget labels k) as [l'|]; [|contradiction]. destruct (tget ps k) as [q|]; [|contradiction]. destruct (tget F k) as [f|] eqn:Ef; [|contradiction]. subst q.
      cbn in Gr. destruct Gr as [<- (i & Hi & H)]. split; [reflexivity|]. exists f, i. rewrite <- tget_elem by exact WF. auto.
    - intros (Hl & f & i & Hf & Hi & H). apply tget_elem in Hf; [|exact WF]. rewrite Hl in Gr. rewrite Hf in Gp. destruct (tget ps k) as [q|] eqn:Eq; [|contradiction]. subst q.
      destruct (tget res k) as [[[l' c'] p']|] eqn:Er'; [|contradiction]. cbn in Gr. destruct Gr as [-> H']. destruct (UN (pred f) c p c' p') as [-> ->]; [exists i; auto|exact H'|reflexivity].
  Qed.
End Labels.
Print Assumptions C48_labels.
Print Assumptions C48_too_many.
Print Assumptions C48_mixed.
Print Assumptions C48_predict.

(** Examples: three labels; the strings "10", "9", "b". *)
Definition lab_ex : dtable nat label := DT [(0, LStr [57%N]); (1, LStr [98%N]); (2, LStr [49%N; 48%N]); (3, LStr [57%N])].
Example C48_ex : NoDup (dt_keys lab_ex) /\ distinct (dt_values lab_ex) [LStr [57%N]; LStr [98%N]; LStr [49%N; 48%N]] /\ alike [LStr [57%N]; LStr [98%N]; LStr [49%N; 48%N]] /\
  check_label lab_ex = Ok ([LStr [49%N; 48%N]; LStr [57%N]; LStr [98%N]], 3, Softmax, DT [(0, 1); (1, 2); (2, 0); (3, 1)]).
Proof.
  split; [ndk|]. split; [split; [ndk|]; intros x; cbn; repeat rewrite elem_of_cons; rewrite elem_of_nil; tauto|]. split; [right; intros l; repeat rewrite elem_of_cons; rewrite elem_of_nil; intros [->|[->|[->|[]]]]; cbn; tauto|].
  vm_compute. reflexivity.
Qed.
Example C48_bad_ex : (exists ls, distinct (dt_values (DT (map (fun i => (i, LInt (Z.of_nat i))) (seq 0 1001)))) ls /\ 1000 < length ls) /\
  distinct (dt_values (DT [(0, LInt 1); (1, LStr [])])) [LInt 1; LStr []] /\ ~ alike [LInt 1; LStr []].
Proof.
  split.
  - exists (map (fun i => LInt (Z.of_nat i)) (seq 0 1001)). split.
    + split; [apply (NoDup_fmap_2_strong (fun i => LInt (Z.of_nat i))); [intros a b _ _ [= E]; lia|apply NoDup_ListNoDup, seq_NoDup]|]. intros x. unfold dt_values. cbn [dt_data]. rewrite map_map. reflexivity.
    + rewrite map_length, seq_length. lia.
  - split; [split; [ndk|intros x; reflexivity]|]. intros [A|A]; [exact (A (LStr []) ltac:(right; left))|exact (A (LInt 1) ltac:(left) Logic.I)].
Qed.
Example C48_predict_ex : predict_result [LStr [97%N]; LStr [98%N]; LStr [99%N]] (Q2Qc (1 # 2)) (fun f => f) lab_ex (DT [(1, [zq 1; zq 2; zq 2]); (9, [zq 0; zq 0; zq 0]); (0, [zq 1; zq 0; zq 0])]) =
  Ok (DT [(1, (LStr [98%N], LStr [98%N], zq 2)); (0, (LStr [57%N], LStr [97%N], zq 1))]).
Proof. vm_compute. reflexivity. Qed.

(** ** C49 *)
(** Exactly the drawn features are marked, and their number m is int(rate * n) but at least 1. *)
Theorem C49_sample n rate draw : 1 <= n -> (Z.of_nat n <= 2 ^ 53)%Z -> (0 < rate)%Qc -> (rate <= 1)%Qc -> draws draw ->
  exists v m, sample_valid_features n rate draw = Ok v /\ length v = n /\ length (List.filter (fun b : bool => b) v) = m /\ (forall f, v !! f = Some true <-> f ∈ draw n m) /\
    1 <= m <= n /\ (m = 1 \/ (zq (Z.of_nat m) <= fround (rate * zq (Z.of_nat n)))%Qc) /\ (fround (rate * zq (Z.of_nat n)) < zq (Z.of_nat m) + 1)%Qc.
Proof.
  intros Hn H53 R0 R1 D. destruct (sample_ok n rate draw Hn H53 R0 R1 D) as (v & E & L & C & G). destruct (sample_size_ok n rate Hn H53 R0 R1) as [B EQ].
  exists v, (sample_size n rate). split; [exact E|]. split; [exact L|]. split; [exact C|]. split; [exact G|]. split; [exact B|].
  pose proof (qfloor_le (fround (rate * zq (Z.of_nat n)))) as F1. pose proof (qfloor_lt (fround (rate * zq (Z.of_nat n)))) as F2. rewrite EQ.
  set (x := fround _) in *. destruct (Z.max_spec 1 (qfloor x)) as [[M ->]|[M ->]].
  - split; [right; exact F1|]. rewrite zq_add, zq_1 in F2. exact F2.
  - split; [left; lia|]. eapply Qclt_le_trans; [exact F2|]. rewrite zq_add, zq_1. apply zq_le in M. rewrite zq_1 in *. qlra.
Qed.
Print Assumptions C49_sample.
(** Example: 0.7 of 10 features are 7, although 0.7 is not a binary fraction. *)
Example C49_ex : draws (fun _ size => seq 0 size) /\ sample_valid_features 10 (Q2Qc (7 # 10)) (fun _ size => seq 0 size) = Ok [true; true; true; true; true; true; true; false; false; false] /\
  sample_valid_features 3 (Q2Qc (1 # 10)) (fun _ size => seq 0 size) = Ok [true; false; false].
Proof.
  split; [|split; vm_compute; reflexivity]. intros n size L. split; [apply NoDup_ListNoDup, seq_NoDup|]. split; [apply seq_length|]. intros f Hf. apply elem_of_list_In, in_seq in Hf. lia.
Qed.

(** ** Training and prediction with all trees *)
Lemma add_up_exact lr ws : add_up (fun x => x) lr ws = (lr * HistSpec.qsum ws)%Qc.
Proof.
  unfold add_up. assert (X : forall a, fold_left (fun f w => f + lr * w)%Qc ws a = (a + lr * HistSpec.qsum ws)%Qc).
  { induction ws as [|w ws IH]; intros a; cbn [fold_left]; unfold HistSpec.qsum in *; cbn [foldr]; [rewrite zq_0; ring|]. rewrite IH. ring. }
  rewrite X, zq_0. ring.
Qed.

(** The parties at the start of prediction with all stored trees. *)
Definition score_sys {K} `{EqDecision K} (rnd : Qc -> Qc) (nh : nat) (sname : nat -> site) (lr : Qc) (dim : nat) (trees : list tree_pb) (hs : list (nat * list tree_pb))
    (graw : dtable K (dict nat Qc)) (hraw : nat -> dtable K (dict nat Qc)) (fuel : nat) : sys (msg K Qc Qc) (dtable K (list Qc)) unit :=
  sysof nh (guest_score rnd nh lr dim trees graw fuel Ret) (fun i => host_score dim (htrees hs i) (hraw i) fuel (sname i) Ret).

(** What Paillier needs, besides [ready]: as for one tree, with nonces for every tree. *)
Record boost_paillier_ok {K} (U : list K) (sk : privkey) (rg rh : nat -> K -> Z) (rr : nat -> nat -> nat -> Z) (lam mi : Qc) (d : nat) : Prop := {
  bp_key : keypair (sk_n sk) sk;
  bp_big : (2 ^ 1000 <= sk_n sk)%Z;
  bp_rg : forall j k, Z.gcd (rg j k) (sk_n sk) = 1%Z;
  bp_rh : forall j k, Z.gcd (rh j k) (sk_n sk) = 1%Z;
  bp_rr : forall j i nid, Z.gcd (rr j i nid) (sk_n sk) = 1%Z;
  bp_rows : (zq 16 * (zq (Z.of_nat (length U)) * zq (Z.of_nat (length U))) <= lam * zq (2 ^ 29))%Qc;
  bp_levels : (zq (Z.of_nat d + 1) * zq (Z.of_nat (length U)) <= lam * zq (2 ^ 47))%Qc;
  bp_mi : (qabs (mi - FLOAT_ZERO) <= zq (2 ^ 29))%Qc }.

Section Boost.
  Context {K : Type} `{EqDecision K} (rnd : Qc -> Qc) (pred : loss_kind -> list Qc -> list Qc) (lossf : loss_kind -> dtable K nat -> dtable K (list Qc) -> Qc).
  Context (U : list K) (nh : nat) (gcfg : pcfg K) (hcfg : nat -> pcfg K) (guest : party K) (hosts : list (party K)) (sname : nat -> site) (it : imp_type).
  Context (P : bparams) (kind : loss_kind) (dim : nat) (y : dtable K nat) (lab : K -> nat).
  Context (gdraw : nat -> nat -> nat -> list nat) (hdraw : nat -> nat -> nat -> nat -> list nat) (d : nat).
  Context (sk : privkey) (rg rh : nat -> K -> Z) (rr : nat -> nat -> nat -> Z).
  Context (graw : dtable K (dict nat Qc)) (hraw : nat -> dtable K (dict nat Qc)).
  Local Notation lam := (reg_lambda (c_par gcfg)).
  Local Notation mi := (min_impurity (c_par gcfg)).
  Local Notation ready := (ready rnd pred U nh gcfg hcfg guest hosts sname P kind dim y lab gdraw hdraw d).
  Local Notation pok := (boost_paillier_ok U sk rg rh rr lam mi d).
  Local Notation plain := (plain_train_sys rnd pred lossf nh gcfg hcfg sname it P kind dim y gdraw hdraw).
  Local Notation enc := (paillier_train_sys rnd pred lossf nh gcfg hcfg sname it P kind dim y gdraw hdraw sk rg rh rr).
  Local Notation guestj j := (with_valid guest (gvalid gcfg P gdraw j)).
  Local Notation hostsj j := (hosts_with hosts (hvalid hcfg P hdraw j)).
  Local Notation trained := (trained rnd pred lossf U nh gcfg hcfg guest hosts sname it P kind dim y lab d).
  Local Notation by_values := (by_values U gcfg hcfg guest hosts P gdraw hdraw d).
  Local Notation boosted eg eh rn rt T := (boosted U guest hosts lab kind dim rnd (b_lr P) pred
    (fun j vg vh t => learn U lam mi (guestj j) (hostsj j) vg vh (eg vg) (eh vh) rn rt d = Ok t) T).
  Local Notation exact := (fun v : K -> Qc => v).
  Local Notation encoded := (fun (v : K -> Qc) k => leaf_value (sk_n sk) (v k)).
  Local Notation weight T := (wt guest hosts T).
  Local Notation per_split := (match it with ISplit => true | _ => false end).

  (** The trees of the model that training ends with: [T] are the trees of the centralised learner and the stored ones stand for
      them. *)
  Definition model_of (T : list dtree) (st : @bstate K) (hs : list (nat * list tree_pb)) : Prop :=
    length (bs_trees st) = length T /\ forall j t, T !! j = Some t -> exists g h, bs_trees st !! j = Some g /\ (forall i, i < nh -> htrees hs i !! j = Some (h i)) /\ BoostProofs.stored nh sname gcfg hcfg g h t.

  Lemma trained_model (RD : ready) lrn T st hs : trained lrn T st hs -> model_of T st hs.
  Proof.
    intros TR. destruct (trained_counts rnd pred lossf U nh gcfg hcfg guest hosts sname it P kind dim y lab d lrn T st hs TR) as (_ & L & _ & _).
    split; [exact L|]. exact (trained_stored rnd pred lossf U nh gcfg hcfg guest hosts sname it P kind dim y lab d lrn T st hs TR).
  Qed.

  Lemma penc (RD : ready) (Hit : it <> IOther) (PK : pok) : exists T st hs, always enc (done st hs) /\ trained (by_values encoded encoded fround (prt (sk_n sk))) T st hs.
  Proof.
    exact (paillier_trained rnd pred lossf U nh gcfg hcfg guest hosts sname it Hit P kind dim y lab gdraw hdraw d RD sk (proj1 (keypair_good _ _ (bp_key _ _ _ _ _ _ _ _ PK))) (bp_big _ _ _ _ _ _ _ _ PK) rg rh rr
      (bp_rg _ _ _ _ _ _ _ _ PK) (bp_rh _ _ _ _ _ _ _ _ PK) (bp_rr _ _ _ _ _ _ _ _ PK) (bp_rows _ _ _ _ _ _ _ _ PK) (bp_levels _ _ _ _ _ _ _ _ PK) (bp_mi _ _ _ _ _ _ _ _ PK)).
  Qed.
  Lemma pplain (RD : ready) (Hit : it <> IOther) : exists T st hs, always plain (done st hs) /\ trained (by_values exact exact (fun x => x) Ok) T st hs.
  Proof. exact (plain_trained rnd pred lossf U nh gcfg hcfg guest hosts sname it Hit P kind dim y lab gdraw hdraw d RD). Qed.

  (** C47 for the whole of training. *)
  Theorem C47_boost_plain : ready -> it <> IOther ->
    exists st hs N, length hs = nh /\ forall m s, nsteps step m plain s -> m <= N /\ nsteps step (N - m) s (done st hs).
  Proof.
    intros RD Hit. destruct (pplain RD Hit) as (T & st & hs & (N & A) & TR). exists st, hs, N. split; [|exact A].
    exact (proj1 (proj2 (proj2 (trained_counts rnd pred lossf U nh gcfg hcfg guest hosts sname it P kind dim y lab d _ T st hs TR)))).
  Qed.
  Theorem C47_boost_paillier : ready -> it <> IOther -> pok ->
    exists st hs N, length hs = nh /\ forall m s, nsteps step m enc s -> m <= N /\ nsteps step (N - m) s (done st hs).
  Proof.
    intros RD Hit PK. destruct (penc RD Hit PK) as (T & st & hs & (N & A) & TR). exists st, hs, N. split; [|exact A].
    exact (proj1 (proj2 (proj2 (trained_counts rnd pred lossf U nh gcfg hcfg guest hosts sname it P kind dim y lab d _ T st hs TR)))).
  Qed.

  (** C40 for the whole model: the trees are those of the centralised boosting loop, each learnt greedily from the gradients of the
      loss at the scores of the trees of the rounds before. *)
  Theorem C40_boost_plain m st hs : ready -> it <> IOther -> nsteps step m plain (done st hs) -> exists T, boosted exact exact (fun x => x) Ok T /\ model_of T st hs.
  Proof.
    intros RD Hit RUN. destruct (pplain RD Hit) as (T & st' & hs' & A & TR). destruct (always_done _ _ _ _ _ _ A RUN) as [-> ->]. exists T. split; [|exact (trained_model RD _ T st' hs' TR)].
    exact (trained_boosted rnd pred lossf U nh gcfg hcfg guest hosts sname it P kind dim y lab d _ T st' hs' TR).
  Qed.
  Theorem C40_boost_paillier m st hs : ready -> it <> IOther -> pok -> nsteps step m enc (done st hs) -> exists T, boosted encoded encoded fround (prt (sk_n sk)) T /\ model_of T st hs.
  Proof.
    intros RD Hit PK RUN. destruct (penc RD Hit PK) as (T & st' & hs' & A & TR). destruct (always_done _ _ _ _ _ _ A RUN) as [-> ->]. exists T. split; [|exact (trained_model RD _ T st' hs' TR)].
    exact (trained_boosted rnd pred lossf U nh gcfg hcfg guest hosts sname it P kind dim y lab d _ T st' hs' TR).
  Qed.

  (** C45. The score of every training row and class is the sum of learning_rate times the weights of its leaves, taken in the
      order of the rounds (start 0, [rnd] after every operation). *)
  Lemma trained_C45 (RD : ready) lrn T st hs (TR : trained lrn T st hs) :
    model_of T st hs /\ length T = length (bs_hist st) * dim /\ NoDup (dt_keys (bs_F st)) /\
      forall k f, (k, f) ∈ dt_data (bs_F st) <-> k ∈ U /\ length f = dim /\ forall c, c < dim -> f !! c = Some (add_up rnd (b_lr P) (map (fun r => weight T (r * dim + c) k) (seq 0 (length (bs_hist st))))).
  Proof.
    split; [exact (trained_model RD _ T st hs TR)|]. split; [exact (proj1 (trained_counts rnd pred lossf U nh gcfg hcfg guest hosts sname it P kind dim y lab d _ T st hs TR))|].
    destruct (trained_scores rnd pred lossf U nh gcfg hcfg guest hosts sname it P kind dim y lab d _ T st hs TR) as [W G]. split; [exact W|]. intros k f. rewrite G. unfold scores, score.
    split.
    - intros [Hk ->]. split; [exact Hk|]. split; [now rewrite map_length, seq_length|]. intros c Hc. rewrite map_lookup, lookup_seq_lt by exact Hc. reflexivity.
    - intros (Hk & L & F). split; [exact Hk|]. apply list_eq. intros c. destruct (decide (c < dim)) as [Hc|Hc].
      + rewrite F, map_lookup, lookup_seq_lt by exact Hc. reflexivity.
      + rewrite (lookup_ge_None_2 f), lookup_ge_None_2; [reflexivity|rewrite map_length, seq_length; lia|lia].
  Qed.
  Theorem C45_plain m st hs : ready -> it <> IOther -> nsteps step m plain (done st hs) ->
    exists T, boosted exact exact (fun x => x) Ok T /\ model_of T st hs /\ length T = length (bs_hist st) * dim /\ NoDup (dt_keys (bs_F st)) /\
      forall k f, (k, f) ∈ dt_data (bs_F st) <-> k ∈ U /\ length f = dim /\ forall c, c < dim -> f !! c = Some (add_up rnd (b_lr P) (map (fun r => weight T (r * dim + c) k) (seq 0 (length (bs_hist st))))).
  Proof.
    intros RD Hit RUN. destruct (pplain RD Hit) as (T & st' & hs' & A & TR). destruct (always_done _ _ _ _ _ _ A RUN) as [-> ->]. exists T.
    split; [|exact (trained_C45 RD _ T st' hs' TR)]. exact (trained_boosted rnd pred lossf U nh gcfg hcfg guest hosts sname it P kind dim y lab d _ T st' hs' TR).
  Qed.
  Theorem C45_paillier m st hs : ready -> it <> IOther -> pok -> nsteps step m enc (done st hs) ->
    exists T, boosted encoded encoded fround (prt (sk_n sk)) T /\ model_of T st hs /\ length T = length (bs_hist st) * dim /\ NoDup (dt_keys (bs_F st)) /\
      forall k f, (k, f) ∈ dt_data (bs_F st) <-> k ∈ U /\ length f = dim /\ forall c, c < dim -> f !! c = Some (add_up rnd (b_lr P) (map (fun r => weight T (r * dim + c) k) (seq 0 (length (bs_hist st))))).
  Proof.
    intros RD Hit PK RUN. destruct (penc RD Hit PK) as (T & st' & hs' & A & TR). destruct (always_done _ _ _ _ _ _ A RUN) as [-> ->]. exists T.
    split; [|exact (trained_C45 RD _ T st' hs' TR)]. exact (trained_boosted rnd pred lossf U nh gcfg hcfg guest hosts sname it P kind dim y lab d _ T st' hs' TR).
  Qed.

  (** Predicting the raw training rows with the stored trees gives, on every schedule, exactly the scores of training. *)
  Lemma trained_C45_predict (RD : ready) lrn T st hs fuel : trained lrn T st hs -> raw_of gcfg graw -> (forall i, i < nh -> raw_of (hcfg i) (hraw i)) -> d < fuel ->
    exists F N, NoDup (dt_keys F) /\ (forall k v, (k, v) ∈ dt_data F <-> (k, v) ∈ dt_data (bs_F st)) /\
      forall m s, nsteps step m (score_sys rnd nh sname (b_lr P) dim (bs_trees st) hs graw hraw fuel) s -> m <= N /\ nsteps step (N - m) s (done F (repeat tt nh)).
  Proof.
    intros TR RG RH HF. destruct (trained_scores rnd pred lossf U nh gcfg hcfg guest hosts sname it P kind dim y lab d _ T st hs TR) as [W0 _].
    destruct (trained_predict (C := Qc) (E := Qc) (R := dtable K (list Qc)) (S := unit) rnd pred lossf U nh gcfg hcfg guest hosts sname it P kind dim y lab gdraw hdraw d RD _ T st hs TR graw hraw fuel RG RH HF) as (F & RU & W & G).
    destruct (runs_done _ _ _ _ _ RU) as (N & A). exists F, N. split; [exact W|]. split; [intros k v; rewrite <- !tget_elem by assumption; apply G|].
    replace (repeat tt nh) with (map (fun _ : nat => tt) (seq 0 nh)); [exact A|]. clear. generalize 0. induction nh as [|n IH]; intros a; [reflexivity|]. cbn. now rewrite IH.
  Qed.
  Theorem C45_predict_plain m st hs fuel : ready -> it <> IOther -> nsteps step m plain (done st hs) -> raw_of gcfg graw -> (forall i, i < nh -> raw_of (hcfg i) (hraw i)) -> d < fuel ->
    exists F N, NoDup (dt_keys F) /\ (forall k v, (k, v) ∈ dt_data F <-> (k, v) ∈ dt_data (bs_F st)) /\
      forall m s, nsteps step m (score_sys rnd nh sname (b_lr P) dim (bs_trees st) hs graw hraw fuel) s -> m <= N /\ nsteps step (N - m) s (done F (repeat tt nh)).
  Proof.
    intros RD Hit RUN. destruct (pplain RD Hit) as (T & st' & hs' & A & TR). destruct (always_done _ _ _ _ _ _ A RUN) as [-> ->]. exact (trained_C45_predict RD _ T st' hs' fuel TR).
  Qed.
  Theorem C45_predict_paillier m st hs fuel : ready -> it <> IOther -> pok -> nsteps step m enc (done st hs) -> raw_of gcfg graw -> (forall i, i < nh -> raw_of (hcfg i) (hraw i)) -> d < fuel ->
    exists F N, NoDup (dt_keys F) /\ (forall k v, (k, v) ∈ dt_data F <-> (k, v) ∈ dt_data (bs_F st)) /\
      forall m s, nsteps step m (score_sys rnd nh sname (b_lr P) dim (bs_trees st) hs graw hraw fuel) s -> m <= N /\ nsteps step (N - m) s (done F (repeat tt nh)).
  Proof.
    intros RD Hit PK RUN. destruct (penc RD Hit PK) as (T & st' & hs' & A & TR). destruct (always_done _ _ _ _ _ _ A RUN) as [-> ->]. exact (trained_C45_predict RD _ T st' hs' fuel TR).
  Qed.

  (** C46. All parties end with as many trees as there were rounds times classes. The recorded losses are those of the scores after
      the rounds, and the number of rounds is as the parameters say. *)
  Lemma trained_C46 lrn T st hs : trained lrn T st hs ->
    (forall i r, hs !! i = Some r -> r.1 = dim /\ length r.2 = length (bs_trees st)) /\ length (bs_trees st) = length (bs_hist st) * dim /\ length hs = nh /\
    losses rnd pred lossf U guest hosts P kind dim y T (bs_hist st) /\ stops rnd (b_early P) (b_tol P) (b_rounds P) (bs_hist st).
  Proof.
    intros TR. destruct (trained_counts rnd pred lossf U nh gcfg hcfg guest hosts sname it P kind dim y lab d _ T st hs TR) as (A & B & D & E).
    split; [intros i r Hr; rewrite B; now apply (E i)|]. split; [congruence|]. split; [exact D|]. split; [exact (tr_losses _ _ _ _ _ _ _ _ _ _ _ _ _ _ _ _ _ _ _ _ _ TR)|exact (tr_stops _ _ _ _ _ _ _ _ _ _ _ _ _ _ _ _ _ _ _ _ _ TR)].
  Qed.
  Theorem C46_plain m st hs : ready -> it <> IOther -> nsteps step m plain (done st hs) ->
    (forall i r, hs !! i = Some r -> r.1 = dim /\ length r.2 = length (bs_trees st)) /\ length (bs_trees st) = length (bs_hist st) * dim /\ length hs = nh /\
    exists T, boosted exact exact (fun x => x) Ok T /\ losses rnd pred lossf U guest hosts P kind dim y T (bs_hist st) /\ stops rnd (b_early P) (b_tol P) (b_rounds P) (bs_hist st).
  Proof.
    intros RD Hit RUN. destruct (pplain RD Hit) as (T & st' & hs' & A & TR). destruct (always_done _ _ _ _ _ _ A RUN) as [-> ->]. destruct (trained_C46 _ T st' hs' TR) as (X1 & X2 & X3 & X4).
    split; [exact X1|]. split; [exact X2|]. split; [exact X3|]. exists T. split; [|exact X4]. exact (trained_boosted rnd pred lossf U nh gcfg hcfg guest hosts sname it P kind dim y lab d _ T st' hs' TR).
  Qed.
  Theorem C46_paillier m st hs : ready -> it <> IOther -> pok -> nsteps step m enc (done st hs) ->
    (forall i r, hs !! i = Some r -> r.1 = dim /\ length r.2 = length (bs_trees st)) /\ length (bs_trees st) = length (bs_hist st) * dim /\ length hs = nh /\
    exists T, boosted encoded encoded fround (prt (sk_n sk)) T /\ losses rnd pred lossf U guest hosts P kind dim y T (bs_hist st) /\ stops rnd (b_early P) (b_tol P) (b_rounds P) (bs_hist st).
  Proof.
    intros RD Hit PK RUN. destruct (penc RD Hit PK) as (T & st' & hs' & A & TR). destruct (always_done _ _ _ _ _ _ A RUN) as [-> ->]. destruct (trained_C46 _ T st' hs' TR) as (X1 & X2 & X3 & X4).
    split; [exact X1|]. split; [exact X2|]. split; [exact X3|]. exists T. split; [|exact X4]. exact (trained_boosted rnd pred lossf U nh gcfg hcfg guest hosts sname it P kind dim y lab d _ T st' hs' TR).
  Qed.

  (** C50. [splits_on own f t] are the gains of the nodes of [t] at which party [own] splits on its feature [f]. A feature that is
      never used has no entry. *)
  Theorem C50_plain m st hs : ready -> it <> IOther -> nsteps step m plain (done st hs) ->
    exists T, boosted exact exact (fun x => x) Ok T /\ model_of T st hs /\ forall own f, match own with None => True | Some i => i < nh end ->
      dict_get (own_site sname own, Some f) (bs_imp st) = let l := flat_map (splits_on own f) T in
        if bool_decide (l = []) then None else Some (if per_split then zq (Z.of_nat (length l)) else HistSpec.qsum l).
  Proof.
    intros RD Hit RUN. destruct (pplain RD Hit) as (T & st' & hs' & A & TR). destruct (always_done _ _ _ _ _ _ A RUN) as [-> ->]. exists T.
    split; [exact (trained_boosted rnd pred lossf U nh gcfg hcfg guest hosts sname it P kind dim y lab d _ T st' hs' TR)|]. split; [exact (trained_model RD _ T st' hs' TR)|].
    intros own f Ho. exact (trained_importance rnd pred lossf U nh gcfg hcfg guest hosts sname it P kind dim y lab gdraw hdraw d RD _ T st' hs' TR own f Ho).
  Qed.
  Theorem C50_paillier m st hs : ready -> it <> IOther -> pok -> nsteps step m enc (done st hs) ->
    exists T, boosted encoded encoded fround (prt (sk_n sk)) T /\ model_of T st hs /\ forall own f, match own with None => True | Some i => i < nh end ->
      dict_get (own_site sname own, Some f) (bs_imp st) = let l := flat_map (splits_on own f) T in
        if bool_decide (l = []) then None else Some (if per_split then zq (Z.of_nat (length l)) else HistSpec.qsum l).
  Proof.
    intros RD Hit PK RUN. destruct (penc RD Hit PK) as (T & st' & hs' & A & TR). destruct (always_done _ _ _ _ _ _ A RUN) as [-> ->]. exists T.
    split; [exact (trained_boosted rnd pred lossf U nh gcfg hcfg guest hosts sname it P kind dim y lab d _ T st' hs' TR)|]. split; [exact (trained_model RD _ T st' hs' TR)|].
    intros own f Ho. exact (trained_importance rnd pred lossf U nh gcfg hcfg guest hosts sname it P kind dim y lab gdraw hdraw d RD _ T st' hs' TR own f Ho).
  Qed.
End Boost.

(** C45 without rounding. *)
Theorem C45_exact {K} `{EqDecision K} pred lossf (U : list K) nh gcfg hcfg guest hosts sname it P kind dim y lab gdraw hdraw d m st hs :
  ready (fun x => x) pred U nh gcfg hcfg guest hosts sname P kind dim y lab gdraw hdraw d -> it <> IOther ->
  nsteps step m (plain_train_sys (fun x => x) pred lossf nh gcfg hcfg sname it P kind dim y gdraw hdraw) (done st hs) ->
  exists T, model_of nh gcfg hcfg sname T st hs /\ length T = length (bs_hist st) * dim /\
    forall k f c, (k, f) ∈ dt_data (bs_F st) -> c < dim -> f !! c = Some (b_lr P * HistSpec.qsum (map (fun r => wt guest hosts T (r * dim + c) k) (seq 0 (length (bs_hist st)))))%Qc.
Proof.
  intros RD Hit RUN. destruct (C45_plain _ pred lossf U nh gcfg hcfg guest hosts sname it P kind dim y lab gdraw hdraw d m st hs RD Hit RUN) as (T & _ & M & L & _ & G). exists T. split; [exact M|]. split; [exact L|].
  intros k f c Hf Hc. apply G in Hf as (_ & _ & F). rewrite (F c Hc). now rewrite add_up_exact.
Qed.
Print Assumptions C47_boost_plain.
Print Assumptions C47_boost_paillier.
Print Assumptions C40_boost_plain.
Print Assumptions C40_boost_paillier.
Print Assumptions C45_plain.
Print Assumptions C45_paillier.
Print Assumptions C45_predict_plain.
Print Assumptions C45_predict_paillier.
Print Assumptions C45_exact.
Print Assumptions C46_plain.
Print Assumptions C46_paillier.
Print Assumptions C50_plain.
Print Assumptions C50_paillier.

(** ** Example: the rows of P_Tree with two classes, two rounds *)
Definition bex_y : dtable nat nat := DT [(0, 0); (1, 0); (2, 1); (3, 1)].
(** A rational function in place of the sigmoid. *)
Definition bex_pred (_ : loss_kind) (f : list Qc) : list Qc := map (fun x => let z := (Q2Qc (1 # 2) + x * Q2Qc (1 # 4))%Qc in if qltb z 0 then 0%Qc else if qltb 1 z then 1%Qc else z) f.
Definition bex_loss (_ : loss_kind) (y : dtable nat nat) (p : dtable nat (list Qc)) : Qc :=
  HistSpec.qsum (map (fun kv => match dict_get kv.1 (dt_data p) with Some [x] => qabs (x - zq (Z.of_nat kv.2)) | _ => zq 0 end) (dt_data y)).
Definition bex_draw (size : nat) : list nat := seq 0 size.
Definition bex_par (rounds : nat) (early : bool) : bparams := BParams rounds (Q2Qc (1 # 2)) 1 early (Q2Qc (1 # 10)).
Definition bex_sys (P P' : bparams) : sys (msg nat Qc Qc) (@bstate nat) (nat * list tree_pb) :=
  sysof 1 (guest_train (fun x => x) bex_pred bex_loss 1 P ex_guest ISplit Sigmoid 1 bex_y (fun _ _ => bex_draw) (fun _ => Ok) Ok Ok (fun _ _ _ x => Ok x) Ret)
    (fun i => host_train qops (ex_name i) P' (ex_host i) (fun _ _ => bex_draw) Ret).

Example bex_ready rnd rounds early : rnd_ok rnd -> ready rnd bex_pred (seq 0 4) 1 ex_guest ex_host (ex_party ex_gbins) [ex_party ex_hbins] ex_name (bex_par rounds early) Sigmoid 1 bex_y (fun k => if k <? 2 then 0 else 1)
  (fun _ _ => bex_draw) (fun _ _ _ => bex_draw) 2.
Proof.
  intros RN. assert (DR : draws (fun _ => bex_draw)) by (exact (proj1 C49_ex)). split.
  - exists ex_gh, ex_vg, ex_vh. exact ex_ok.
  - split; [cbn; lia|]. split; [cbn; lia|]. intros i _. split; cbn; lia.
  - split; vm_compute; [reflexivity|discriminate].
  - split; [intros _; exact DR|intros _ _ _; exact DR].
  - split; [reflexivity|lia].
  - reflexivity.
  - lia.
  - intros k _. split; [reflexivity|]. destruct (k <? 2); lia.
  - split; [ndk|]. split; [intros k; reflexivity|]. intros k v Hv. cbn in Hv. repeat rewrite elem_of_cons in Hv. destruct Hv as [[= -> ->]|[[= -> ->]|[[= -> ->]|[[= -> ->]|Hv]]]]; [reflexivity..|now apply elem_of_nil in Hv].
  - intros f L. unfold bex_pred. split; [now rewrite map_length|]. intros x Hx. apply elem_of_list_In, in_map_iff in Hx as (z & <- & _). cbv zeta.
    destruct (qltb _ 0) eqn:E1; [split; vm_compute; discriminate|]. destruct (qltb 1 _) eqn:E2; [split; vm_compute; discriminate|]. apply qltb_false in E1, E2. auto.
  - exact RN.
Qed.
Example bex_paillier : exists sk, boost_paillier_ok (seq 0 4) sk (fun _ _ => 1%Z) (fun _ _ => 1%Z) (fun _ _ _ => 1%Z) (reg_lambda (c_par ex_guest)) (min_impurity (c_par ex_guest)) 2.
Proof.
  destruct ex_paillier as (sk & [A B C D E F G H I J L]). exists sk. split; [exact A|exact B|intros; apply Z.gcd_1_l|intros; apply Z.gcd_1_l|intros; apply Z.gcd_1_l|exact H|exact I|exact L].
Qed.
(** What one schedule gives. *)
Definition bended (s : sys (msg nat Qc Qc) (@bstate nat) (nat * list tree_pb)) :=
  match s_guest s with
  | Ret st => Some (map (fun kv => (kv.1, map this kv.2)) (dt_data (bs_F st)), length (bs_trees st), map (fun kv => (kv.1, this kv.2)) (bs_imp st), map this (bs_hist st),
                    map (fun h => match h.1.1 with Ret r => Some (r.1, length r.2) | _ => None end) (s_hosts s))
  | _ => None
  end.
Example bex_run : exists F imp hist, bended (run 3000 (bex_sys (bex_par 2 true) (bex_par 2 true))).2 = Some (F, 2, imp, hist, [Some (1, 2)]) /\ length F = 4 /\ length hist = 2 /\ imp = [((HostSite 0, Some 0), 2%Q)].
Proof. vm_compute. do 3 eexists. split; [reflexivity|]. auto. Qed.

(** The host reads its own num_trees and n_iter_no_change. With fewer rounds at the host, or with early stopping at the guest
    only, no schedule ends with both having returned. *)
Theorem C46_mismatch_refuted : exists P P' P'', (b_rounds P' < b_rounds P /\ b_early P' = b_early P) /\ (b_rounds P'' = b_rounds P /\ b_early P'' <> b_early P) /\
  forall Q, Q = P' \/ Q = P'' -> exists N s, nf step s /\ (forall r hs, s <> done r hs) /\ forall m s', nsteps step m (bex_sys P Q) s' -> m <= N /\ nsteps step (N - m) s' s.
Proof.
  exists (bex_par 2 true), (bex_par 1 true), (bex_par 2 false). split; [split; [cbn; lia|reflexivity]|]. split; [split; [reflexivity|discriminate]|].
  intros Q HQ. set (s0 := bex_sys (bex_par 2 true) Q).
  assert (ST : is_stuck (run 3000 s0).2 = true) by (destruct HQ as [-> | ->]; vm_compute; reflexivity).
  assert (GW : match s_guest (run 3000 s0).2 with Ret _ => true | _ => false end = false) by (destruct HQ as [-> | ->]; vm_compute; reflexivity).
  destruct (always_run 3000 s0 ST) as (N & A). exists N, (run 3000 s0).2. split; [now apply stuck_nf|]. split; [|exact A]. intros r hs E. rewrite E in GW. discriminate GW.
Qed.
Print Assumptions C46_mismatch_refuted.
