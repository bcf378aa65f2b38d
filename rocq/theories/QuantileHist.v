(** Quantile summaries after any history, and after one batch of insertions. *)
From Verif Require Import PyBase QcBase FixedPointModel FixedPointSpec FixedPointProofs EncNumProofs FloatProofs
  QuantileModel QuantileSpec QuantileProofs.
From Coq Require Import Lia.
Local Open Scope Z_scope.

Local Notation vals := (map st_value).

Lemma sublist_in {A} (l k : list A) x : l `sublist_of` k -> x ∈ l -> x ∈ k.
Proof.
  induction 1 as [|y l k H IH|y l k H IH]; intros Hx; [exact Hx| |right; auto].
  apply elem_of_cons in Hx as [->|Hx]; [now left|right; auto].
Qed.

Lemma ss_sublist {A} (R : A -> A -> Prop) l k : l `sublist_of` k -> StronglySorted R k -> StronglySorted R l.
Proof.
  induction 1 as [|x l k H IH|x l k H IH]; intros S; [exact S| |].
  - apply StronglySorted_inv in S as [S F]. constructor; [now apply IH|]. rewrite Forall_forall in *. intros y Hy. apply F. eapply sublist_in; eauto.
  - apply StronglySorted_inv in S as [S F]. now apply IH.
Qed.

(** ** Flushing *)
Lemma take_le_spec cur samp : StronglySorted Qcle (vals samp) ->
  exists a b, take_le cur samp = (a, b) /\ samp = a ++ b /\ Forall (fun s => (st_value s <= cur)%Qc) a /\ Forall (fun s => (cur < st_value s)%Qc) b.
Proof.
  induction samp as [|s samp IH]; intros H; cbn [take_le].
  - exists [], []. repeat split; constructor.
  - cbn [map] in H. apply StronglySorted_inv in H as [H F]. destruct (IH H) as (a & b & E & -> & Ha & Hb). rewrite E.
    destruct (qleb _ _) eqn:Q.
    + apply qleb_true in Q. exists (s :: a), b. repeat split; [constructor; auto|exact Hb].
    + apply qleb_false in Q. exists [], (s :: a ++ b). repeat split; [constructor|]. constructor; [exact Q|].
      rewrite Forall_map in F. eapply Forall_impl; [exact F|]. intros t Ht. simpl in Ht. eapply Qclt_le_trans; eauto.
Qed.

Definition vg (s : stats) : Qc * Z := (st_value s, st_g s).

Definition below (head : list Qc) (s : stats) : bool := existsb (qleb (st_value s)) head.
Lemma below_spec head s : below head s = true <-> exists m, m ∈ head /\ (st_value s <= m)%Qc.
Proof.
  unfold below. rewrite existsb_exists. split; intros (m & H1 & H2); exists m; rewrite ?elem_of_list_In, ?qleb_true in *; auto.
Qed.

Lemma flush_loop_spec e head : forall samp new count,
  StronglySorted Qcle head -> StronglySorted Qcle (vals samp) -> StronglySorted Qcle (vals new) ->
  (forall x y, x ∈ vals new -> y ∈ head -> (x <= y)%Qc) -> (forall x y, x ∈ vals new -> y ∈ vals samp -> (x <= y)%Qc) ->
  let r := flush_loop e head samp new count in
  r.2 = count + Z.of_nat (length head) /\ StronglySorted Qcle (vals r.1) /\
  map vg r.1 ≡ₚ map vg new ++ map vg (List.filter (below head) samp) ++ map (fun x => (x, 1)) head.
Proof.
  induction head as [|cur head IH]; intros samp new count SH SS SN HN HS; cbn [flush_loop].
  - cbn. split; [lia|]. split; [exact SN|]. induction samp; cbn; [now rewrite app_nil_r|]. apply IHsamp.
    + cbn in SS. now apply StronglySorted_inv in SS as [].
    + intros. apply HS; [assumption|]. now right.
  - destruct (take_le_spec cur samp SS) as (a & b & E & -> & Ha & Hb). rewrite E. cbv zeta.
    set (d := if _ || _ then _ else _). apply StronglySorted_inv in SH as [SH FH]. rewrite Forall_forall in FH.
    rewrite map_app in SS, HS. apply ss_app in SS as (Sa & Sb & Sab). rewrite Forall_forall in Ha, Hb.
    assert (Ha' : forall x, x ∈ vals a -> (x <= cur)%Qc) by (intros x (s & -> & Hs)%elem_of_list_fmap; auto).
    assert (Hb' : forall x, x ∈ vals b -> (cur < x)%Qc) by (intros x (s & -> & Hs)%elem_of_list_fmap; auto).
    destruct (IH b ((new ++ a) ++ [ST cur 1 d]) (count + 1)) as (R1 & R2 & R3); auto.
    + rewrite !map_app. apply ss_app. split; [|split].
      * apply ss_app. split; [exact SN|split; [exact Sa|]]. intros x y Hx Hy. apply HS; [exact Hx|apply elem_of_app; now left].
      * repeat constructor.
      * intros x y Hx Hy. cbn in Hy. apply elem_of_list_singleton in Hy as ->. apply elem_of_app in Hx as [Hx|Hx]; [apply HN; [exact Hx|now left]|auto].
    + intros x y Hx Hy. rewrite !map_app in Hx. apply elem_of_app in Hx as [[Hx|Hx]%elem_of_app|Hx].
      * apply HN; [exact Hx|now right].
      * eapply Qcle_trans; [apply Ha', Hx|now apply FH].
      * cbn in Hx. apply elem_of_list_singleton in Hx as ->. now apply FH.
    + intros x y Hx Hy. rewrite !map_app in Hx. apply elem_of_app in Hx as [[Hx|Hx]%elem_of_app|Hx].
      * apply HS; [exact Hx|apply elem_of_app; now right].
      * now apply Sab.
      * cbn in Hx. apply elem_of_list_singleton in Hx as ->. now apply Qclt_le_weak, Hb'.
    + split; [rewrite R1; cbn [length]; lia|]. split; [exact R2|]. rewrite R3. rewrite List.filter_app, !map_app. cbn [map vg st_value st_g].
      assert (Ea : List.filter (below (cur :: head)) a = a).
      { clear -Ha. induction a as [|s a IHa]; [reflexivity|]. cbn [List.filter].
        assert (B : below (cur :: head) s = true) by (apply below_spec; exists cur; split; [now left|apply Ha; now left]).
        rewrite B. f_equal. apply IHa. intros. apply Ha. now right. }
      assert (Eb : List.filter (below (cur :: head)) b = List.filter (below head) b).
      { clear -Hb. induction b as [|s b IHb]; [reflexivity|]. cbn [List.filter].
        assert (B : below (cur :: head) s = below head s).
        { unfold below. cbn [existsb]. assert (Q : qleb (st_value s) cur = false) by (apply qleb_false, Hb; now left). now rewrite Q. }
        rewrite B, IHb; [reflexivity|]. intros. apply Hb. now right. }
      rewrite Ea, Eb. rewrite <- !app_assoc. apply Permutation_app_head, Permutation_app_head.
      change (vg (ST cur 1 d)) with (cur, 1). now rewrite <- Permutation_middle.
Qed.

(** ** Compressing *)
Lemma weight_cons x a : weight (x :: a) = st_g x + weight a.
Proof. reflexivity. Qed.
Lemma weight_app a b : weight (a ++ b) = weight a + weight b.
Proof. induction a as [|x a IHa]; [reflexivity|]. cbn [app]. rewrite !weight_cons, IHa. lia. Qed.

Lemma compress_loop_vals thr mids : forall head res,
  vals (compress_loop thr head mids res) `sublist_of` vals (rev mids ++ head :: res) /\
  (exists pre h', compress_loop thr head mids res = h' :: pre) /\
  List.last (vals (compress_loop thr head mids res)) (zq 0) = List.last (vals (head :: res)) (zq 0) /\
  weight (compress_loop thr head mids res) = weight (rev mids ++ head :: res) /\
  (Forall (fun s => 1 <= st_g s) (rev mids ++ head :: res) -> Forall (fun s => 1 <= st_g s) (compress_loop thr head mids res)).
Proof.
  induction mids as [|t mids IH]; intros head res; cbn [compress_loop].
  - cbn [rev app]. repeat split; eauto.
  - pose proof weight_app as W.
    destruct (qltb _ _).
    + destruct (IH (ST (st_value head) (st_g head + st_g t) (st_delta head)) res) as (A & B & C & D & E).
      split; [|split; [exact B|split; [exact C|split]]].
      * etransitivity; [exact A|]. cbn [rev]. rewrite <- app_assoc, !map_app. apply sublist_app; [reflexivity|]. cbn. now apply sublist_cons.
      * rewrite D. cbn [rev]. rewrite <- app_assoc, !W. cbn [app]. rewrite !weight_cons. change (weight []) with 0. cbn [st_g]. lia.
      * cbn [rev]. rewrite <- app_assoc. intros F. apply E. rewrite Forall_app in *. destruct F as [F1 F2]. split; [exact F1|].
        cbn [app] in F2. inversion F2 as [|? ? F3 F4]; subst. inversion F4; subst. constructor; [cbn [st_g]; lia|assumption].
    + destruct (IH t (head :: res)) as (A & B & C & D & E). cbn [rev]. rewrite <- app_assoc. cbn [app].
      split; [exact A|split; [exact B|split; [|split; [exact D|exact E]]]]. rewrite C. reflexivity.
Qed.

Lemma compress_immut_spec thr l : StronglySorted Qcle (vals l) ->
  vals (compress_immut thr l) `sublist_of` vals l /\ (compress_immut thr l = [] <-> l = []) /\
  weight (compress_immut thr l) = weight l /\
  (Forall (fun s => 1 <= st_g s) l -> Forall (fun s => 1 <= st_g s) (compress_immut thr l)) /\
  hd_error (vals (compress_immut thr l)) = hd_error (vals l) /\
  List.last (vals (compress_immut thr l)) (zq 0) = List.last (vals l) (zq 0).
Proof.
  intros SS. destruct l as [|f tl]; cbn [compress_immut]; [repeat split; auto|].
  destruct (rev tl) as [|last mids] eqn:R; apply (f_equal (@rev stats)) in R; rewrite rev_involutive in R; cbn [rev] in R; subst tl.
  - cbn. repeat split; auto; intros; discriminate.
  - destruct (compress_loop_vals thr mids last []) as (A & (pre & h & B) & C & D & E). rewrite B in *.
    assert (Q : qleb (st_value f) (st_value h) = true).
    { apply qleb_true. cbn [map] in SS. apply StronglySorted_inv in SS as [_ F]. rewrite Forall_forall in F. apply F.
      assert (IN : st_value h ∈ vals (h :: pre)) by (cbn; now left). eapply sublist_in in IN; [|exact A]. exact IN. }
    rewrite Q. split; [cbn [map]; now apply sublist_skip|]. split; [split; discriminate|].
    split; [cbn [weight foldr]; unfold weight in D; rewrite <- D; reflexivity|].
    split. { intros F. inversion F as [|? ? F1 F2]; subst. constructor; [exact F1|]. apply E. exact F2. }
    split; [reflexivity|].
    assert (LL : forall (a : list Qc) x y, List.last (a ++ [x]) y = x).
    { intros a x y. induction a as [|z a IHa]; [reflexivity|]. cbn [app List.last]. destruct (a ++ [x]) eqn:Z; [destruct a; discriminate|exact IHa]. }
    cbn [map]. rewrite !map_app. cbn [map]. 
    change (st_value f :: vals (rev mids) ++ [st_value last]) with ((st_value f :: vals (rev mids)) ++ [st_value last]). rewrite LL.
    cbn [map List.last] in C. cbn [List.last]. exact C.
Qed.

(** ** Any history *)
Definition qinv (xs : list Qc) (s : qsum) : Prop :=
  qs_head s ⊆ xs /\ vals (qs_sampled s) ⊆ xs /\ qs_count s + Z.of_nat (length (qs_head s)) = Z.of_nat (length xs) /\
  StronglySorted Qcle (vals (qs_sampled s)) /\ Forall (fun s => 1 <= st_g s) (qs_sampled s) /\ 0 <= qs_count s /\
  (qs_sampled s = [] <-> qs_count s = 0).

Lemma flush_inv xs s : qinv xs s -> qinv xs (qs_flush s) /\ qs_head (qs_flush s) = [].
Proof.
  intros (H1 & H2 & H3 & H4 & H5 & H6 & H7). unfold qs_flush. destruct (qs_head s) as [|h0 hd] eqn:EH.
  - split; [|exact EH]. unfold qinv. rewrite EH. auto 10.
  - rewrite <- EH in *. destruct (flush_loop_spec (qs_error s) (sorted (qs_head s)) (qs_sampled s) [] (qs_count s)) as (R1 & R2 & R3);
      [apply sorted_ss|exact H4|constructor|intros ? ? Hx; inversion Hx|intros ? ? Hx; inversion Hx|].
    destruct (flush_loop _ _ _ _ _) as [new count]. cbn [fst snd] in *. rewrite sorted_length in R1. split; [|reflexivity].
    unfold qinv. cbn [qs_head qs_sampled qs_count length].
    assert (IN : forall x, x ∈ new -> vg x ∈ map vg (List.filter (below (sorted (qs_head s))) (qs_sampled s)) ++ map (fun x => (x, 1)) (sorted (qs_head s))).
    { intros x Hx. change (map vg (List.filter (below (sorted (qs_head s))) (qs_sampled s)) ++ map (λ x0 : Qc, (x0, 1)) (sorted (qs_head s)))
        with (map vg [] ++ map vg (List.filter (below (sorted (qs_head s))) (qs_sampled s)) ++ map (λ x0 : Qc, (x0, 1)) (sorted (qs_head s))).
      rewrite <- R3. apply elem_of_list_fmap. eauto. }
    assert (IN2 : forall x, x ∈ new -> (exists y, y ∈ qs_sampled s /\ vg x = vg y) \/ (st_value x ∈ qs_head s /\ st_g x = 1)).
    { intros x Hx%IN. apply elem_of_app in Hx as [(y & Ey & Hy)%elem_of_list_fmap|(y & Ey & Hy)%elem_of_list_fmap].
      - left. exists y. split; [|exact Ey]. apply elem_of_list_In in Hy. apply filter_In in Hy as [Hy _]. now apply elem_of_list_In.
      - right. rewrite sorted_perm in Hy. unfold vg in Ey. now simplify_eq. }
    split; [intros x Hx; inversion Hx|]. split.
    { intros v (x & -> & Hx)%elem_of_list_fmap. destruct (IN2 x Hx) as [(y & Hy & E)|[Hy _]]; [|now apply H1].
      apply H2. unfold vg in E. simplify_eq. rewrite H. apply elem_of_list_fmap. eauto. }
    split; [lia|]. split; [exact R2|]. split.
    { apply Forall_forall. intros x Hx. destruct (IN2 x Hx) as [(y & Hy & E)|[_ Hy]]; [|lia].
      rewrite Forall_forall in H5. unfold vg in E. simplify_eq. rewrite H0. now apply H5. }
    split; [lia|]. split; [|intros; rewrite EH in R1; cbn [length] in R1; lia]. intros ->. exfalso.
    cbn in R3. apply Permutation_nil in R3. apply app_eq_nil in R3 as [_ R3]. apply map_eq_nil in R3.
    apply (f_equal length) in R3. rewrite sorted_length, EH in R3. discriminate.
Qed.

Lemma compress_inv xs s : qinv xs s -> qinv xs (qs_compress s) /\ qs_head (qs_compress s) = [].
Proof.
  intros H. apply flush_inv in H as [(H1 & H2 & H3 & H4 & H5 & H6 & H7) Hd]. unfold qs_compress. split; [|exact Hd].
  destruct (compress_immut_spec (two_err (qs_error (qs_flush s)) (qs_count (qs_flush s))) _ H4) as (A & B & C & D & _ & _).
  unfold qinv. cbn [qs_head qs_sampled qs_count]. split; [exact H1|]. split.
  { intros v Hv. apply H2. eapply sublist_in in Hv; [|exact A]. exact Hv. }
  split; [exact H3|]. split; [eapply ss_sublist; [exact A|exact H4]|]. split; [now apply D|]. split; [exact H6|]. now rewrite B.
Qed.

Lemma insert_inv xs s x : qinv xs s -> qinv (if decide (x ∈ qs_abnormal s) then xs else xs ++ [x]) (qs_insert s x).
Proof.
  intros H. unfold qs_insert. destruct (existsb (qeqb x) (qs_abnormal s)) eqn:E.
  - apply abnormal_mem in E. now rewrite decide_True.
  - rewrite decide_False by (rewrite <- abnormal_mem; congruence). cbv zeta.
    set (s1 := QS _ _ _ _ (qs_head s ++ [x]) _ _).
    assert (I : qinv (xs ++ [x]) s1).
    { destruct H as (H1 & H2 & H3 & H4 & H5 & H6 & H7). unfold qinv, s1. cbn [qs_head qs_sampled qs_count].
      split; [intros y [Hy|Hy]%elem_of_app; apply elem_of_app; auto|]. split; [intros y Hy; apply elem_of_app; left; auto|].
      split; [rewrite !app_length; cbn; lia|auto]. }
    destruct (_ <=? _); [|exact I]. destruct (_ <=? _); [|now apply flush_inv].
    apply compress_inv. now apply flush_inv.
Qed.

Lemma merge_stats_spec a : forall b, StronglySorted Qcle (vals a) -> StronglySorted Qcle (vals b) ->
  merge_stats a b ≡ₚ a ++ b /\ StronglySorted Qcle (vals (merge_stats a b)).
Proof.
  induction a as [|x a IHa]; intros b Sa Sb; [split; [reflexivity|exact Sb]|].
  induction b as [|y b IHb].
  - cbn [merge_stats]. rewrite app_nil_r. split; [reflexivity|exact Sa].
  - pose proof Sa as Sa'. pose proof Sb as Sb'. cbn [map] in Sa', Sb'. apply StronglySorted_inv in Sa' as [Sa' Fa]. apply StronglySorted_inv in Sb' as [Sb' Fb].
    cbn [merge_stats]. destruct (qltb (st_value x) (st_value y)) eqn:Q.
    + apply qltb_true in Q. destruct (IHa (y :: b) Sa' Sb) as [P S]. split; [now rewrite P|]. cbn [map]. constructor; [exact S|].
      apply Forall_forall. intros v (s & -> & Hs)%elem_of_list_fmap. rewrite P in Hs. apply elem_of_app in Hs as [Hs|[->|Hs]%elem_of_cons].
      * rewrite Forall_forall in Fa. apply Fa, elem_of_list_fmap. eauto.
      * now apply Qclt_le_weak.
      * eapply Qcle_trans; [apply Qclt_le_weak, Q|]. rewrite Forall_forall in Fb. apply Fb, elem_of_list_fmap. eauto.
    + apply qltb_false in Q. destruct (IHb Sb') as [P S]. change ((fix go (b0 : list stats) : list stats := match b0 with [] => x :: a | y0 :: b' => if qltb (st_value x) (st_value y0) then x :: merge_stats a (y0 :: b') else y0 :: go b' end) b) with (merge_stats (x :: a) b).
      split; [rewrite P; now rewrite Permutation_middle|]. cbn [map]. constructor; [exact S|].
      apply Forall_forall. intros v (s & -> & Hs)%elem_of_list_fmap. rewrite P in Hs. apply elem_of_app in Hs as [[->|Hs]%elem_of_cons|Hs].
      * exact Q.
      * eapply Qcle_trans; [exact Q|]. rewrite Forall_forall in Fa. apply Fa, elem_of_list_fmap. eauto.
      * rewrite Forall_forall in Fb. apply Fb, elem_of_list_fmap. eauto.
Qed.

Lemma pre_inv xs s : qinv xs s -> let s' := match qs_head s with [] => s | _ => qs_compress s end in qinv xs s' /\ qs_head s' = [].
Proof. intros H. cbv zeta. destruct (qs_head s) eqn:E; [auto|now apply compress_inv]. Qed.

Lemma merge_inv xs s ys o : qinv xs s -> qinv ys o -> qinv (xs ++ ys) (qs_merge s o).
Proof.
  intros Hs Ho. unfold qs_merge. apply pre_inv in Hs, Ho. cbv zeta in Hs, Ho.
  set (o' := match qs_head o with [] => o | _ => _ end) in *. set (s' := match qs_head s with [] => s | _ => _ end) in *.
  destruct Hs as [(H1 & H2 & H3 & H4 & H5 & H6 & H7) Eh], Ho as [(K1 & K2 & K3 & K4 & K5 & K6 & K7) Ek].
  rewrite Eh in H3. rewrite Ek in K3. cbn [length] in H3, K3.
  destruct (qs_count o' =? 0) eqn:Q1; [|destruct (qs_count s' =? 0) eqn:Q2].
  - apply Z.eqb_eq in Q1. assert (ys = []) as -> by (destruct ys; [reflexivity|cbn in K3; lia]). rewrite app_nil_r.
    unfold qinv. rewrite Eh. repeat split; auto; try apply H7. intros x Hx; inversion Hx.
  - apply Z.eqb_eq in Q2. assert (xs = []) as -> by (destruct xs; [reflexivity|cbn in H3; lia]). cbn [app].
    unfold qinv. cbn [qs_head qs_sampled qs_count]. rewrite Eh. repeat split; auto; try apply K7. intros x Hx; inversion Hx.
  - apply Z.eqb_neq in Q1, Q2. destruct (merge_stats_spec _ _ H4 K4) as [P S].
    destruct (compress_immut_spec (two_err (qs_error s') (qs_count s' + qs_count o')) _ S) as (A & B & C & D & _ & _).
    unfold qinv. cbn [qs_head qs_sampled qs_count]. rewrite Eh. cbn [length]. split; [intros x Hx; inversion Hx|]. split.
    { intros v Hv. eapply sublist_in in Hv; [|exact A]. apply elem_of_list_fmap in Hv as (t & -> & Ht). rewrite P in Ht. apply elem_of_app in Ht as [Ht|Ht]; apply elem_of_app;
      [left; apply H2|right; apply K2]; apply elem_of_list_fmap; eauto. }
    split; [rewrite app_length; lia|]. split; [eapply ss_sublist; [exact A|exact S]|]. split.
    { apply D. rewrite P. now apply Forall_app. }
    split; [lia|]. rewrite B. split; [|lia]. intros E. rewrite E in P. apply Permutation_nil in P. apply app_eq_nil in P as [E1 _]. apply H7 in E1. lia.
Qed.

Lemma reach_inv xs s : reach xs s -> qinv xs s.
Proof.
  induction 1 as [t h e a|xs s x H IH|xs s H IH|xs s q H IH|xs s ys o H IH H' IH'].
  - unfold qinv, qs_new. cbn. repeat split; auto; try (intros x Hx; inversion Hx); try constructor; lia.
  - now apply insert_inv.
  - now apply compress_inv.
  - unfold qs_query. cbn [fst]. now apply pre_inv.
  - now apply merge_inv.
Qed.

Lemma scan_in rank te l : forall m last, scan rank te m l last = last \/ scan rank te m l last ∈ vals l.
Proof.
  induction l as [|s l IH]; intros m last; cbn [scan]; [now left|]. destruct l as [|s' l]; [now left|]. cbv zeta.
  destruct (_ && _); [right; now left|]. destruct (IH (m + st_g s) last) as [->|H]; [now left|right; now right].
Qed.

Lemma last_in (l : list stats) x : List.last l x ∈ x :: l.
Proof. induction l as [|s l IH]; [now left|]. cbn [List.last]. destruct l; [right; now left|]. apply elem_of_cons in IH as [->|IH]; [now left|now right; right]. Qed.

Lemma query_inv xs s q : qinv xs s -> (zq 0 <= q)%Qc -> (q <= zq 1)%Qc ->
  exists v, snd (qs_query s q) = Ok v /\ (v ∈ xs \/ xs = [] /\ v = zq 0).
Proof.
  intros H H0 H1. unfold qs_query. cbn [snd]. apply pre_inv in H. cbv zeta in H. set (s' := match qs_head s with [] => s | _ => _ end) in *.
  destruct H as [(A1 & A2 & A3 & A4 & A5 & A6 & A7) Eh]. rewrite Eh in A3. cbn [length] in A3.
  apply qltb_false in H0, H1. rewrite H0, H1. cbn [orb]. destruct (qs_count s' =? 0) eqn:Q.
  - apply Z.eqb_eq in Q. exists (zq 0). split; [reflexivity|right]. split; [|reflexivity]. destruct xs; [reflexivity|cbn in A3; lia].
  - apply Z.eqb_neq in Q. destruct (qs_sampled s') as [|f tl] eqn:E; [exfalso; apply Q; now apply A7|]. cbv zeta.
    assert (L : st_value (List.last tl f) ∈ xs) by (apply A2, elem_of_list_fmap; eexists; split; [reflexivity|apply last_in]).
    destruct (qleb q _); [eexists; split; [reflexivity|left; apply A2; now left]|]. destruct (qleb _ q); [eauto|].
    eexists. split; [reflexivity|]. left. destruct (scan_in (qceil (fround (q * zq (qs_count s')))) (qceil (fround (qs_error s' * zq (qs_count s')))) tl 0 (st_value (List.last tl f))) as [->|HI]; [exact L|].
    apply A2. now right.
Qed.
