(** Proofs about the split search. *)
From Verif Require Export SplitSpec HistProofs QcBase.
Local Open Scope nat_scope.

Lemma qltb_ge a b : qltb a b = false <-> (b <= a)%Qc.
Proof.
  split; intros H.
  - apply Qcnot_lt_le. intros X. apply qltb_true in X. congruence.
  - destruct (qltb a b) eqn:E; [|reflexivity]. apply qltb_true in E. exfalso. eapply Qcle_not_lt; eauto.
Qed.

Ltac qcases := repeat match goal with
  | H : qltb _ _ = true |- _ => apply qltb_true in H
  | H : qltb _ _ = false |- _ => apply qltb_ge in H
  | H : qleb _ _ = true |- _ => apply qleb_true in H
  | H : qleb _ _ = false |- _ => apply qleb_false in H
  end.

(** ** The loop "keep if above m and above the best so far". *)
Definition best_loop {A} (m : Qc) (f : A -> res Qc) (st : Qc * option A) (a : A) : res (Qc * option A) :=
  x ← f a; if qltb m x && qltb st.1 x then Ok (x, Some a) else Ok st.
Definition merge {A} (st : Qc * option A) (r : option (A * Qc)) : Qc * option A :=
  match r with Some (a, x) => if qltb st.1 x then (x, Some a) else st | None => st end.

Lemma first_best_gt {A} m (l : list (A * Qc)) a x : first_best m l = Some (a, x) -> (m < x)%Qc.
Proof.
  revert a x. induction l as [|[a x] l IH]; intros a0 x0; cbn; [discriminate|].
  destruct (first_best m l) as [[a' x']|].
  - destruct (qltb x x'); [intros [= <- <-]; eauto|]. destruct (qltb m x) eqn:E; intros [= <- <-]; [now apply qltb_true|eauto].
  - destruct (qltb m x) eqn:E; intros [= <- <-]. now apply qltb_true.
Qed.

Lemma best_loop_ok {A} m (f : A -> res Qc) l : forall st,
  foldM (best_loop m f) st l = (xs ← mapR f l; Ok (merge st (first_best m (combine l xs)))).
Proof.
  induction l as [|a l IH]; intros st; [reflexivity|]. cbn [foldM mapR]. unfold best_loop at 1.
  destruct (f a) as [x|e]; [|reflexivity]. cbn [mbind res_bind].
  set (st1 := if qltb m x && qltb st.1 x then (x, Some a) else st).
  transitivity (foldM (best_loop m f) st1 l).
  { unfold st1. destruct (qltb m x && qltb st.1 x); reflexivity. }
  rewrite IH. destruct (mapR f l) as [xs|e]; [|reflexivity]. cbn [mbind res_bind combine first_best]. f_equal.
  unfold st1. destruct (first_best m (combine l xs)) as [[a' x']|] eqn:E.
  - pose proof (first_best_gt _ _ _ _ E) as G. cbn [merge].
    destruct (qltb m x) eqn:E1, (qltb (fst st) x) eqn:E2; cbn [andb fst]; destruct (qltb x x') eqn:E3; cbn [merge fst];
      rewrite ?E2; destruct (qltb (fst st) x') eqn:E4; rewrite ?E3; try reflexivity; exfalso; qcases; qlra.
  - cbn [merge]. destruct (qltb m x) eqn:E1, (qltb (fst st) x) eqn:E2; cbn [andb merge]; rewrite ?E2; reflexivity.
Qed.

(** ** What [first_best] means. *)
Lemma first_best_spec {A} m (l : list (A * Qc)) :
  match first_best m l with
  | Some (a, x) => (m < x)%Qc /\ exists i, l !! i = Some (a, x) /\
      forall j a' x', l !! j = Some (a', x') -> (x' <= x)%Qc /\ (j < i -> (x' < x)%Qc)
  | None => forall i a x, l !! i = Some (a, x) -> (x <= m)%Qc
  end.
Proof.
  induction l as [|[a x] l IH]; [intros i a x H; now rewrite lookup_nil in H|]. cbn [first_best].
  destruct (first_best m l) as [[a' x']|].
  - destruct IH as (G & i & Hi & D). destruct (qltb x x') eqn:E1.
    { apply qltb_true in E1. split; [exact G|]. exists (S i). split; [exact Hi|]. intros [|j] b y; cbn.
      - intros [= <- <-]. split; [now apply Qclt_le_weak|intros _; exact E1].
      - intros Hj. destruct (D j b y Hj) as [D1 D2]. split; [exact D1|]. intros. apply D2. lia. }
    apply qltb_ge in E1. assert (G' : (m < x)%Qc) by (eapply Qclt_le_trans; eauto).
    rewrite (proj2 (qltb_true m x) G'). split; [exact G'|]. exists 0. split; [reflexivity|]. intros [|j] b y; cbn.
    + intros [= <- <-]. split; [apply Qcle_refl|lia].
    + intros Hj. split; [|lia]. destruct (D j b y Hj) as [D1 _]. eapply Qcle_trans; eauto.
  - destruct (qltb m x) eqn:E1.
    + apply qltb_true in E1. split; [exact E1|]. exists 0. split; [reflexivity|]. intros [|j] b y; cbn.
      * intros [= <- <-]. split; [apply Qcle_refl|lia].
      * intros Hj. split; [|lia]. eapply Qcle_trans; [exact (IH j b y Hj)|]. now apply Qclt_le_weak.
    + apply qltb_ge in E1. intros [|j] b y; cbn; [now intros [= <- <-]|eauto].
Qed.

(** ** The candidates in scan order. *)
Definition bin_cands {C} (P : sparams) (fid : nat) (tot : trip C) (bins : list (trip C)) : list (nat * nat * (trip C * trip C)) :=
  map (fun bt => (fid, bt.1, (bt.2, tot)))
    (List.filter (fun bt => (min_leaf P <=? tc bt.2)%Z && (min_leaf P <=? tc tot - tc bt.2)%Z) (combine (seq 0 (length bins)) bins)).
Fixpoint cand_list {C} (P : sparams) (valid : list bool) (fid : nat) (feats : list (list (trip C))) : list (nat * nat * (trip C * trip C)) :=
  match feats with
  | [] => []
  | bins :: feats' =>
      match valid !! fid, last bins with
      | Some true, Some tot => if (tc tot <? min_sample P)%Z then [] else bin_cands P fid tot bins ++ cand_list P valid (S fid) feats'
      | _, _ => cand_list P valid (S fid) feats'
      end
  end.

Definition cgain (lam : Qc) (c : nat * nat * (trip Qc * trip Qc)) : res Qc :=
  let t := c.2.1 in let T := c.2.2 in split_gain lam (tg T) (th T) (tg t) (th t) (tg T - tg t)%Qc (th T - th t)%Qc.

Lemma foldM_filter {A B S} (f : S -> B -> res S) (g : A -> B) p l : forall s,
  foldM f s (map g (List.filter p l)) = foldM (fun s a => if p a : bool then f s (g a) else Ok s) s l.
Proof.
  induction l as [|a l IH]; intros s; [reflexivity|]. cbn. destruct (p a); cbn; [|apply IH].
  destruct (f s (g a)); [apply IH|reflexivity].
Qed.

(** The guest's loop, run with the whole candidate as the remembered value. *)
Definition to_best (st : Qc * option (nat * nat * (trip Qc * trip Qc))) : best :=
  Best st.1 (match st.2 with Some (f, b, (t, _)) => Some (f, b, (tg t, th t)) | None => None end).

Lemma foldM_simul {S S' A} (f : S -> A -> res S) (f' : S' -> A -> res S') (R : S -> S') l :
  (forall s a, f' (R s) a = s' ← f s a; Ok (R s')) -> forall s, foldM f' (R s) l = s' ← foldM f s l; Ok (R s').
Proof.
  intros H. induction l as [|a l IH]; intros s; [reflexivity|]. cbn. rewrite H. destruct (f s a); cbn; [apply IH|reflexivity].
Qed.

Lemma foldM_ext {S A} (f g : S -> A -> res S) l s : (forall s a, f s a = g s a) -> foldM f s l = foldM g s l.
Proof. intros H. revert s. induction l as [|a l IH]; intros s; [reflexivity|]. cbn. rewrite H. destruct (g s a); [apply IH|reflexivity]. Qed.

Lemma guest_features_ok P valid feats : forall fid st, length valid >= fid + length feats ->
  guest_features P valid fid feats (to_best st)
  = st' ← foldM (best_loop (min_impurity P) (cgain (reg_lambda P))) st (cand_list P valid fid feats); Ok (to_best st').
Proof.
  induction feats as [|bins feats IH]; intros fid st HL; [reflexivity|]. cbn [guest_features cand_list]. cbn [length] in HL.
  unfold list_index. destruct (lookup_lt_is_Some_2 valid fid) as [v Hv]; [lia|]. rewrite Hv. cbn [mbind res_bind].
  destruct v; cbn [negb]; [|apply IH; lia]. destruct (last bins) as [tot|]; [|apply IH; lia].
  destruct (tc tot <? min_sample P)%Z; [reflexivity|]. rewrite foldM_app. unfold bin_cands. rewrite foldM_filter.
  rewrite (foldM_simul (fun s a => if (min_leaf P <=? tc a.2)%Z && (min_leaf P <=? tc tot - tc a.2)%Z
    then best_loop (min_impurity P) (cgain (reg_lambda P)) s (fid, a.1, (a.2, tot)) else Ok s) (guest_bin P fid tot) to_best).
  - destruct (foldM _ st _) as [st'|e]; [|reflexivity]. cbn [mbind res_bind]. apply IH. lia.
  - intros s a. unfold guest_bin. destruct (_ && _); [|reflexivity]. unfold best_loop, cgain. cbn [fst snd].
    destruct (split_gain _ _ _ _ _ _ _) as [x|e]; [|reflexivity]. cbn [mbind res_bind to_best b_gain].
    destruct (qltb (min_impurity P) x && qltb s.1 x); reflexivity.
Qed.

Lemma host_features_ok {C E} P valid sn feats : forall fid, length valid >= fid + length feats ->
  host_features P valid sn fid feats
  = Ok (map (fun c : nat * nat * (trip C * trip C) => SInfo (E := E) sn (Some c.1.1) (Some c.1.2) (Some (tg c.2.1)) (Some (th c.2.1)) None)
          (cand_list P valid fid feats)).
Proof.
  induction feats as [|bins feats IH]; intros fid HL; [reflexivity|]. cbn [host_features cand_list]. cbn [length] in HL.
  unfold list_index. destruct (lookup_lt_is_Some_2 valid fid) as [v Hv]; [lia|]. rewrite Hv. cbn [mbind res_bind].
  destruct v; cbn [negb]; [|apply IH; lia]. destruct (last bins) as [tot|]; [|apply IH; lia].
  destruct (tc tot <? min_sample P)%Z; [reflexivity|]. rewrite IH by lia. cbn [mbind res_bind]. f_equal.
  unfold bin_cands. now rewrite map_app, map_map.
Qed.

(** Membership and order of the candidates. *)
Lemma combine_seq_elem {X} (l : list X) n i x : (i, x) ∈ combine (seq n (length l)) l <-> n <= i /\ l !! (i - n) = Some x.
Proof.
  revert n. induction l as [|a l IH]; intros n; cbn.
  - split; [intros H; inversion H|intros [_ H]; now rewrite lookup_nil in H].
  - rewrite elem_of_cons, IH. split.
    + intros [[= -> ->]|[H1 H2]]; [rewrite Nat.sub_diag; auto|]. split; [lia|]. now replace (i - n) with (S (i - S n)) by lia.
    + intros [H1 H2]. destruct (decide (i = n)) as [->|Hn].
      * rewrite Nat.sub_diag in H2. cbn in H2. injection H2 as ->. auto.
      * right. split; [lia|]. now replace (i - n) with (S (i - S n)) in H2 by lia.
Qed.

Lemma bin_cands_elem {C} P fid (tot : trip C) bins f b t T :
  (f, b, (t, T)) ∈ bin_cands P fid tot bins <->
  f = fid /\ T = tot /\ bins !! b = Some t /\ (min_leaf P <= tc t)%Z /\ (min_leaf P <= tc tot - tc t)%Z.
Proof.
  unfold bin_cands. rewrite elem_of_list_fmap. split.
  - intros ([b' t'] & [= -> -> -> ->] & H). apply elem_of_list_In, filter_In in H as [H1 H2]. apply elem_of_list_In in H1.
    apply combine_seq_elem in H1 as [_ H1]. rewrite Nat.sub_0_r in H1. apply andb_prop in H2 as [H2 H3].
    cbn [fst snd] in *. apply Z.leb_le in H2, H3. auto.
  - intros (-> & -> & H & H2 & H3). exists (b, t). split; [reflexivity|]. apply elem_of_list_In, filter_In. split.
    + apply elem_of_list_In, combine_seq_elem. rewrite Nat.sub_0_r. auto with lia.
    + cbn [snd]. apply Z.leb_le in H2, H3. now rewrite H2, H3.
Qed.

Lemma used_cons {C} valid fid bins (feats : list (list (trip C))) f tot :
  used (drop fid valid) (bins :: feats) f tot <->
  (f = 0 /\ valid !! fid = Some true /\ last bins = Some tot) \/ (exists f', f = S f' /\ used (drop (S fid) valid) feats f' tot).
Proof.
  unfold used. destruct f as [|f]; rewrite !lookup_drop; cbn [lookup list_lookup].
  - rewrite Nat.add_0_r. split; [intros (H & b & [= <-] & H2); auto|].
    intros [(_ & H1 & H2)|(f' & [=] & _)]. split; [exact H1|]. eexists. split; [reflexivity|exact H2].
  - split.
    + intros (H & b & H1 & H2). right. exists f. split; [reflexivity|]. rewrite lookup_drop. split; [|eauto]. now replace (S fid + f) with (fid + S f) by lia.
    + intros [([=] & _)|(f' & [= <-] & H & b & H1 & H2)]. rewrite lookup_drop in H. split; [|eauto]. now replace (fid + S f) with (S fid + f) by lia.
Qed.

Lemma cand_list_elem {C} P valid (feats : list (list (trip C))) : forall fid f b t T,
  (f, b, (t, T)) ∈ cand_list P valid fid feats <-> fid <= f /\ candidate P (drop fid valid) feats (f - fid) b t T.
Proof.
  induction feats as [|bins feats IH]; intros fid f b t T.
  - cbn. split; [intros H; inversion H|]. intros (_ & (_ & bs & H & _) & _). now rewrite lookup_nil in H.
  - cbn [cand_list].
    assert (SKIP : (forall tot, ~ (valid !! fid = Some true /\ last bins = Some tot)) ->
      (f, b, (t, T)) ∈ cand_list P valid (S fid) feats <-> fid <= f /\ candidate P (drop fid valid) (bins :: feats) (f - fid) b t T).
    { intros NO. rewrite IH. split.
      - intros (HL & HU & (bs & Hb1 & Hb2) & HS & HR). split; [lia|]. replace (f - fid) with (S (f - S fid)) by lia.
        split; [apply used_cons; right; eauto|]. split; [eauto|]. split; [|exact HR].
        intros f' tot' Hf' HU'. apply used_cons in HU' as [(_ & X)|(f2 & -> & HU')]; [destruct (NO _ X)|]. apply (HS f2 tot'); [lia|exact HU'].
      - intros (HL & HU & (bs & Hb1 & Hb2) & HS & HR). apply used_cons in HU as [(_ & X)|(f2 & E & HU)]; [destruct (NO _ X)|].
        split; [lia|]. replace (f - S fid) with f2 by lia. rewrite E in Hb1, HS. split; [exact HU|]. split; [eauto|]. split; [|exact HR].
        intros f' tot' Hf' HU'. apply (HS (S f') tot'); [lia|]. apply used_cons. right. eauto. }
    destruct (valid !! fid) as [[|]|] eqn:Ev; [|apply SKIP; intros ? [? ?]; congruence..].
    destruct (last bins) as [tot|] eqn:El; [|apply SKIP; intros ? [? ?]; congruence].
    destruct (Z.ltb_spec (tc tot) (min_sample P)) as [HS|HS].
    + split; [intros H; inversion H|]. intros (_ & _ & _ & X & _). specialize (X 0 tot ltac:(lia)).
      assert (Y : used (drop fid valid) (bins :: feats) 0 tot) by (apply used_cons; auto). specialize (X Y). lia.
    + rewrite elem_of_app, bin_cands_elem, IH. split.
      * intros [(-> & -> & H1 & H2 & H3)|(HL & HU & (bs & Hb1 & Hb2) & HS' & HR)].
        -- split; [lia|]. rewrite Nat.sub_diag. split; [apply used_cons; auto|]. split; [exists bins; auto|]. split; [|auto].
           intros f' tot' Hf' HU'. replace f' with 0 in HU' by lia. apply used_cons in HU' as [(_ & _ & X)|(f2 & [=] & _)].
           rewrite El in X. injection X as <-. lia.
        -- split; [lia|]. replace (f - fid) with (S (f - S fid)) by lia. split; [apply used_cons; right; eauto|]. split; [eauto|]. split; [|exact HR].
           intros f' tot' Hf' HU'. apply used_cons in HU' as [(_ & _ & X)|(f2 & -> & HU')]; [rewrite El in X; injection X as <-; lia|].
           apply (HS' f2 tot'); [lia|exact HU'].
      * intros (HL & HU & (bs & Hb1 & Hb2) & HS' & HR1 & HR2). destruct (decide (f = fid)) as [->|Hf].
        -- left. rewrite Nat.sub_diag in *. cbn in Hb1. injection Hb1 as <-. apply used_cons in HU as [(_ & _ & X)|(f2 & [=] & _)].
           rewrite El in X. injection X as <-. auto.
        -- right. split; [lia|]. destruct (f - fid) as [|f2] eqn:E; [lia|]. replace (f - S fid) with f2 by lia.
           apply used_cons in HU as [([=] & _)|(f3 & [= <-] & HU)]. split; [exact HU|]. split; [eauto|]. split; [|auto].
           intros f' tot' Hf' HU'. apply (HS' (S f') tot'); [lia|]. apply used_cons. right. eauto.
Qed.

(** Strictly increasing in scan order. *)
Definition key {X} (c : nat * nat * X) : nat * nat := c.1.
Lemma bin_cands_sorted {C} P fid (tot : trip C) bins : StronglySorted (fun a b => lex_lt (key a) (key b)) (bin_cands P fid tot bins).
Proof.
  unfold bin_cands. generalize 0 at 1. induction bins as [|a bins IH]; intros n; cbn; [constructor|].
  destruct (_ && _); [|apply IH]. cbn [map]. constructor; [apply IH|]. apply Forall_forall. intros [[f b] x] H.
  apply elem_of_list_fmap in H as ([b' t'] & [= -> -> ->] & H). apply elem_of_list_In, filter_In in H as [H _].
  apply elem_of_list_In, combine_seq_elem in H as [H _]. right. cbn. lia.
Qed.

Lemma sorted_app {X} (R : X -> X -> Prop) l1 l2 :
  StronglySorted R l1 -> StronglySorted R l2 -> (forall x y, x ∈ l1 -> y ∈ l2 -> R x y) -> StronglySorted R (l1 ++ l2).
Proof.
  intros S1 S2 H. induction S1 as [|x l1 S1 IH F]; [exact S2|]. cbn. constructor.
  - apply IH. intros. apply H; [now right|assumption].
  - apply Forall_app. split; [exact F|]. apply Forall_forall. intros y Hy. apply H; [now left|exact Hy].
Qed.

Lemma cand_list_sorted {C} P valid (feats : list (list (trip C))) : forall fid,
  StronglySorted (fun a b => lex_lt (key a) (key b)) (cand_list P valid fid feats).
Proof.
  induction feats as [|bins feats IH]; intros fid; cbn; [constructor|].
  destruct (valid !! fid) as [[|]|]; [|apply IH..]. destruct (last bins) as [tot|]; [|apply IH].
  destruct (tc tot <? min_sample P)%Z; [constructor|]. apply sorted_app; [apply bin_cands_sorted|apply IH|].
  intros [[f b] [t T]] [[f' b'] [t' T']] H1 H2. apply bin_cands_elem in H1 as (-> & _). apply cand_list_elem in H2 as (H2 & _). left. cbn. lia.
Qed.

Lemma sorted_lookup {X} (R : X -> X -> Prop) l i j x y :
  StronglySorted R l -> l !! i = Some x -> l !! j = Some y -> i < j -> R x y.
Proof.
  intros S. revert i j. induction S as [|a l S IH F]; intros i j Hi Hj L; [now rewrite lookup_nil in Hi|].
  destruct j as [|j]; [lia|]. cbn in Hj. destruct i as [|i]; cbn in Hi.
  - injection Hi as <-. rewrite Forall_forall in F. apply F. eapply elem_of_list_lookup_2; exact Hj.
  - eapply IH; eauto. lia.
Qed.

Lemma lex_irrefl a b : lex_lt a b -> lex_lt b a -> False.
Proof. unfold lex_lt. lia. Qed.

Lemma mapR_ok_fn {A B} (f : A -> res B) (g : A -> B) l : (forall x, x ∈ l -> f x = Ok (g x)) -> mapR f l = Ok (map g l).
Proof.
  induction l as [|a l IH]; intros H; [reflexivity|]. cbn. rewrite (H a) by now left. rewrite IH; [reflexivity|].
  intros x Hx. apply H. now right.
Qed.

(** The first best of the candidates is the best candidate in scan order. *)
Lemma first_best_of {C} P valid (h : list (list (trip C))) m (gain : nat * nat * (trip C * trip C) -> Qc) (r : option (nat * nat * Qc)) :
  let l := cand_list P valid 0 h in
  match first_best m (combine l (map gain l)) with Some (c, x) => r = Some (c.1.1, c.1.2, x) | None => r = None end ->
  best_of (fun f b x => exists t T, candidate P valid h f b t T /\ x = gain (f, b, (t, T))) m r.
Proof.
  intros l H. pose proof (first_best_spec m (combine l (map gain l))) as S.
  assert (AT : forall i c x, combine l (map gain l) !! i = Some (c, x) <-> l !! i = Some c /\ x = gain c).
  { intros i c x. generalize l. clear. intros l. revert i. induction l as [|a l IH]; intros [|i]; cbn; [split; [discriminate|intros [[=] _]]..| |apply IH].
    split; [intros [= <- <-]; auto|intros [[= <-] ->]; auto]. }
  assert (MEM : forall f b x, (exists t T, candidate P valid h f b t T /\ x = gain (f, b, (t, T))) ->
    exists i t T, l !! i = Some (f, b, (t, T)) /\ x = gain (f, b, (t, T))).
  { intros f b x (t & T & HC & ->). assert (Hin : (f, b, (t, T)) ∈ l).
    { apply cand_list_elem. rewrite drop_0, Nat.sub_0_r. auto with lia. }
    apply elem_of_list_lookup in Hin as (i & Hi). eauto 6. }
  destruct (first_best m (combine l (map gain l))) as [[c x]|] eqn:E; subst r.
  - destruct c as [[f b] [t T]]. destruct S as (G & i & Hi & D). apply AT in Hi as [Hi Ex]. cbn [fst snd].
    assert (HC : candidate P valid h f b t T).
    { assert (X : (f, b, (t, T)) ∈ l) by (eapply elem_of_list_lookup_2; exact Hi). apply cand_list_elem in X as [_ X]. now rewrite drop_0, Nat.sub_0_r in X. }
    cbn [best_of]. split; [eauto|]. split; [exact G|]. intros f' b' x' Hx'. destruct (MEM f' b' x' Hx') as (j & t' & T' & Hj & Ex').
    destruct (D j (f', b', (t', T')) x') as [D1 D2]; [apply AT; auto|]. split; [exact D1|]. intros HL. apply D2.
    destruct (Nat.lt_trichotomy j i) as [L|[->|L]]; [exact L| |].
    + rewrite Hi in Hj. injection Hj as <- <- _ _. exfalso. exact (lex_irrefl _ _ HL HL).
    + exfalso. pose proof (sorted_lookup _ _ _ _ _ _ (cand_list_sorted P valid h 0) Hi Hj L) as X. exact (lex_irrefl _ _ HL X).
  - cbn [best_of]. intros f b x Hx. destruct (MEM f b x Hx) as (i & t & T & Hi & Ex). apply (S i (f, b, (t, T)) x). apply AT. auto.
Qed.

(** Gains without a zero denominator. *)
Lemma split_gain_ok lam g h gl hl : no_zero lam h hl ->
  split_gain lam g h gl hl (g - gl)%Qc (h - hl)%Qc = Ok (gain_of lam g h gl hl).
Proof.
  intros (N1 & N2 & N3). unfold split_gain, node_gain, gain_of, score.
  destruct (decide ((hl + lam)%Qc = zq 0)); [contradiction|]. cbn [mbind res_bind].
  destruct (decide ((h - hl + lam)%Qc = zq 0)); [contradiction|]. cbn [mbind res_bind].
  destruct (decide ((h + lam)%Qc = zq 0)); [contradiction|]. reflexivity.
Qed.

(** ** The guest's search. *)
Lemma FLOAT_ZERO_pos : (zq 0 < FLOAT_ZERO)%Qc.
Proof. apply qltb_true. vm_compute. reflexivity. Qed.

Definition guest_result (P : sparams) (r : option (nat * nat * (trip Qc * trip Qc) * Qc)) : splitinfo Qc Qc :=
  match r with
  | Some (c, x) => SInfo GuestSite (Some c.1.1) (Some c.1.2) (Some (tg c.2.1)) (Some (th c.2.1)) (Some x)
  | None => SInfo GuestSite None None None None (Some (min_impurity P - FLOAT_ZERO)%Qc)
  end.

Lemma find_split_guest_ok P valid h xs : length valid >= length h ->
  mapR (cgain (reg_lambda P)) (cand_list P valid 0 h) = Ok xs ->
  find_split_guest P valid h = Ok (guest_result P (first_best (min_impurity P) (combine (cand_list P valid 0 h) xs))).
Proof.
  intros HL E. unfold find_split_guest.
  change (Best (min_impurity P - FLOAT_ZERO)%Qc None) with (to_best ((min_impurity P - FLOAT_ZERO)%Qc, None)).
  rewrite guest_features_ok by (cbn; lia). rewrite best_loop_ok, E. cbn [mbind res_bind].
  pose proof (first_best_gt (min_impurity P) (combine (cand_list P valid 0 h) xs)) as G.
  destruct (first_best _ _) as [[[[f b] [t T]] x]|]; cbn [merge fst snd]; [|reflexivity].
  specialize (G _ _ eq_refl). pose proof FLOAT_ZERO_pos as F. rewrite zq_0 in F.
  rewrite (proj2 (qltb_true _ _)) by qlra. reflexivity.
Qed.

(** ** The host's search, through candidates, decryption and choice of an index. *)
Lemma first_best_map {A B} (g : A -> B) m l :
  first_best m (map (fun ax => (g ax.1, ax.2)) l) = option_map (fun ax : A * Qc => (g ax.1, ax.2)) (first_best m l).
Proof.
  induction l as [|[a x] l IH]; [reflexivity|]. cbn [map first_best fst snd]. rewrite IH.
  destruct (first_best m l) as [[a' x']|]; cbn [option_map fst snd].
  - destruct (qltb x x'); [reflexivity|]. destruct (qltb m x); reflexivity.
  - destruct (qltb m x); reflexivity.
Qed.

Lemma first_best_elem {A} m (l : list (A * Qc)) a x : first_best m l = Some (a, x) -> (a, x) ∈ l.
Proof.
  intros E. pose proof (first_best_spec m l) as S. rewrite E in S. destruct S as (_ & i & Hi & _). eapply elem_of_list_lookup_2; exact Hi.
Qed.

Section HostSearch.
Context {C E : Type} (P : sparams) (dec : C -> res Qc).
Definition sums_of (c : nat * nat * (trip C * trip C)) : option C * option C := (Some (tg c.2.1), Some (th c.2.1)).

Lemma host_pick_ok G H l (sl : nat * nat * (trip C * trip C) -> Qc * Qc) :
  (forall c, c ∈ l -> dec (tg c.2.1) = Ok (sl c).1 /\ dec (th c.2.1) = Ok (sl c).2 /\ no_zero (reg_lambda P) H (sl c).2) ->
  exists st, foldM (host_pick P dec G H) ((min_impurity P - FLOAT_ZERO)%Qc, None) (combine (seq 0 (length (map sums_of l))) (map sums_of l)) = Ok st /\
    match first_best (min_impurity P) (map (fun c => (c, gain_of (reg_lambda P) G H (sl c).1 (sl c).2)) l) with
    | Some (c, x) => exists i, st = (x, Some i) /\ l !! i = Some c
    | None => st = ((min_impurity P - FLOAT_ZERO)%Qc, None)
    end.
Proof.
  intros D. rewrite map_length. set (il := combine (seq 0 (length l)) l).
  assert (IL : combine (seq 0 (length l)) (map sums_of l) = map (fun ic => (ic.1, sums_of ic.2)) il).
  { unfold il. generalize 0. clear. induction l as [|a l IH]; intros n; [reflexivity|]. cbn. now rewrite IH. }
  rewrite IL. set (gn := fun ic : nat * (nat * nat * (trip C * trip C)) => gain_of (reg_lambda P) G H (sl ic.2).1 (sl ic.2).2).
  set (f := fun ic : nat * (nat * nat * (trip C * trip C)) =>
    gl ← dec (tg ic.2.2.1); hl ← dec (th ic.2.2.1); split_gain (reg_lambda P) G H gl hl (G - gl)%Qc (H - hl)%Qc).
  assert (F : forall st l0, foldM (host_pick P dec G H) (st.1, option_map fst st.2) (map (fun ic => (ic.1, sums_of ic.2)) l0)
    = st' ← foldM (best_loop (min_impurity P) f) st l0; Ok (st'.1, option_map fst st'.2)).
  { clear. intros st l0. revert st. induction l0 as [|ic l0 IH]; intros st; [reflexivity|]. cbn [map foldM].
    unfold host_pick at 1, best_loop at 1, f at 1. cbn [fst snd sums_of dec_opt].
    destruct (dec (tg ic.2.2.1)) as [gl|e]; [|reflexivity]. cbn [mbind res_bind].
    destruct (dec (th ic.2.2.1)) as [hl|e]; [|reflexivity]. cbn [mbind res_bind].
    destruct (split_gain _ _ _ _ _ _ _) as [x|e]; [|reflexivity]. cbn [mbind res_bind].
    destruct (qltb (min_impurity P) x && qltb st.1 x); [|apply IH].
    change (x, Some ic.1) with ((x, Some ic).1, option_map fst (x, Some ic).2). apply IH. }
  assert (MF : mapR f il = Ok (map gn il)).
  { apply mapR_ok_fn. intros [i c] Hic. apply combine_seq_elem in Hic as [_ Hi]. apply elem_of_list_lookup_2 in Hi.
    destruct (D c Hi) as (D1 & D2 & D3). unfold f, gn. cbn [fst snd]. rewrite D1. cbn [mbind res_bind]. rewrite D2. cbn [mbind res_bind].
    now apply split_gain_ok. }
  specialize (F ((min_impurity P - FLOAT_ZERO)%Qc, None) il). rewrite best_loop_ok, MF in F. cbn [mbind res_bind fst snd option_map] in F.
  set (fb := first_best (min_impurity P) (combine il (map gn il))) in *.
  assert (FB : first_best (min_impurity P) (map (fun c => (c, gain_of (reg_lambda P) G H (sl c).1 (sl c).2)) l) =
    option_map (fun ax => (ax.1.2, ax.2)) fb).
  { unfold fb. rewrite <- (first_best_map snd). f_equal. unfold gn, il. generalize 0. clear.
    induction l as [|a l IH]; intros n; [reflexivity|]. cbn. f_equal. apply IH. }
  eexists. split; [exact F|]. rewrite FB. pose proof (first_best_gt (min_impurity P) (combine il (map gn il))) as GT.
  pose proof (first_best_elem (min_impurity P) (combine il (map gn il))) as EL. fold fb in GT, EL.
  destruct fb as [[[i c] x]|]; cbn [option_map fst snd merge]; [|reflexivity].
  specialize (GT _ _ eq_refl). specialize (EL _ _ eq_refl). pose proof FLOAT_ZERO_pos as FP. rewrite zq_0 in FP.
  rewrite (proj2 (qltb_true _ _)) by qlra. cbn [fst snd option_map]. exists i. split; [reflexivity|].
  apply elem_of_list_In in EL. apply in_combine_l in EL. apply elem_of_list_In in EL. apply combine_seq_elem in EL as [_ EL]. now rewrite Nat.sub_0_r in EL.
Qed.
End HostSearch.

(** ** The choice between guest and hosts. *)
Section Choice.
Context {C E : Type} (dec : C -> res Qc) (gdec : E -> res Qc).

Lemma best_host_ok (hosts : list (splitinfo C E)) xs :
  Forall2 (fun s x => dec_opt gdec (si_gain s) = Ok x) hosts xs -> forall k x0 i0,
  exists x i, foldM (best_host_step gdec) (x0, i0) (combine (seq k (length hosts)) hosts) = Ok (x, i) /\
    (x0 <= x)%Qc /\ (forall j y, xs !! j = Some y -> (y <= x)%Qc) /\
    ((x = x0 /\ i = i0) \/ (x0 < x)%Qc /\ exists j, i = k + j /\ xs !! j = Some x /\ forall j' y, j' < j -> xs !! j' = Some y -> (y < x)%Qc).
Proof.
  induction 1 as [|s y hosts xs Hs _ IH]; intros k x0 i0.
  - exists x0, i0. split; [reflexivity|]. split; [apply Qcle_refl|]. split; [intros j y H; now rewrite lookup_nil in H|auto].
  - cbn [length seq combine foldM]. unfold best_host_step at 1. cbn [snd fst]. rewrite Hs. cbn [mbind res_bind].
    destruct (qltb x0 y) eqn:E1; qcases.
    + destruct (IH (S k) y k) as (x & i & -> & A & B & D). exists x, i. split; [reflexivity|]. split; [qlra|]. split.
      { intros [|j] z; cbn; [intros [= <-]; exact A|apply B]. }
      right. split; [qlra|]. destruct D as [[-> ->]|(Lt & j & -> & Hj & D)].
      * exists 0. split; [lia|]. split; [reflexivity|]. intros; lia.
      * exists (S j). split; [lia|]. split; [exact Hj|]. intros [|j'] z HL; cbn; [intros [= <-]; exact Lt|]. apply D. lia.
    + destruct (IH (S k) x0 i0) as (x & i & -> & A & B & D). exists x, i. split; [reflexivity|]. split; [exact A|]. split.
      { intros [|j] z; cbn; [intros [= <-]; qlra|apply B]. }
      destruct D as [[-> ->]|(Lt & j & -> & Hj & D)]; [auto|]. right. split; [exact Lt|].
      exists (S j). split; [lia|]. split; [exact Hj|]. intros [|j'] z HL; cbn; [intros [= <-]; qlra|]. apply D. lia.
Qed.

(** The loop of find_best_split, from the first host on. *)
Lemma best_host_all (s1 : splitinfo C E) hosts x1 xs :
  Forall2 (fun s x => dec_opt gdec (si_gain s) = Ok x) (s1 :: hosts) (x1 :: xs) ->
  exists x i, foldM (best_host_step gdec) (x1, 0) (combine (seq 0 (length (s1 :: hosts))) (s1 :: hosts)) = Ok (x, i) /\
    (x1 :: xs) !! i = Some x /\ forall j y, (x1 :: xs) !! j = Some y -> (y <= x)%Qc /\ (j < i -> (y < x)%Qc).
Proof.
  intros F. destruct (best_host_ok _ _ F 0 x1 0) as (x & i & Ef & A & B & D). exists x, i. split; [exact Ef|].
  destruct D as [[-> ->]|(Lt & j & -> & Hj & D)].
  - split; [reflexivity|]. intros j y Hj. split; [eauto|lia].
  - split; [exact Hj|]. intros j' y Hj'. split; [eauto|]. intros L. apply (D j' y); [exact L|exact Hj'].
Qed.

(** A host's offer: site, feature, left sums, decrypted gain. [None] is the placeholder. *)
Definition offer : Type := site * nat * (Qc * Qc).
Definition offered (lim : Qc) (s : splitinfo C E) (o : option (offer * Qc)) : Prop :=
  match o with
  | Some ((sn, f, (gl, hl)), y) => si_site s = sn /\ si_fid s = Some f /\ si_bid s = None /\ dec_opt dec (si_grad s) = Ok gl /\
      dec_opt dec (si_hess s) = Ok hl /\ dec_opt gdec (si_gain s) = Ok y
  | None => exists y, dec_opt gdec (si_gain s) = Ok y /\ (y <= lim)%Qc
  end.
Definition of_offer (o : offer * Qc) : splitinfo Qc Qc :=
  SInfo o.1.1.1 (Some o.1.1.2) None (Some o.1.2.1) (Some o.1.2.2) (Some o.2).

Lemma first_best_skip {A} m (l : list (option A * Qc)) :
  (forall x, (None, x) ∈ l -> (x <= m)%Qc) ->
  first_best m (omap (fun ox => match ox.1 with Some a => Some (a, ox.2) | None => None end) l) =
  match first_best m l with Some (Some a, x) => Some (a, x) | _ => None end.
Proof.
  induction l as [|[[a|] x] l IH]; intros H; [reflexivity|..]; cbn [omap list_omap fst snd].
  - cbn [first_best]. rewrite IH by (intros y Hy; apply H; now right).
    pose proof (first_best_elem m l) as EL. pose proof (first_best_gt m l) as GT.
    destruct (first_best m l) as [[[a'|] x']|].
    + destruct (qltb x x'), (qltb m x); reflexivity.
    + exfalso. specialize (EL _ _ eq_refl). specialize (GT _ _ eq_refl). apply (Qcle_not_lt x' m); [apply H; now right|exact GT].
    + destruct (qltb m x); reflexivity.
  - cbn [first_best]. assert (X : qltb m x = false) by (apply qltb_ge, H; now left). rewrite X.
    assert (L : (x <= m)%Qc) by (now apply qltb_ge). specialize (IH ltac:(intros y Hy; apply H; now right)).
    pose proof (first_best_gt m l) as GT. destruct (first_best m l) as [[oa x']|]; [|exact IH].
    specialize (GT _ _ eq_refl). rewrite (proj2 (qltb_true x x')) by qlra. exact IH.
Qed.

Lemma find_best_split_ok guest gg (hosts : list (splitinfo C E)) (offers : list (option (offer * Qc))) :
  hosts <> [] -> si_gain guest = Some gg -> Forall2 (offered (gg + FLOAT_ZERO)%Qc) hosts offers ->
  find_best_split dec gdec guest hosts =
  Ok (match first_best (gg + FLOAT_ZERO)%Qc (omap id offers) with Some o => of_offer o | None => guest end).
Proof.
  intros NE Gg F.
  assert (exists xs, Forall2 (fun s x => dec_opt gdec (si_gain s) = Ok x) hosts xs /\
    Forall2 (fun o x => match o with Some (_, y) => x = y | None => (x <= gg + FLOAT_ZERO)%Qc end) offers xs) as (xs & F1 & F2).
  { clear NE. induction F as [|s o hosts offers Ho _ IH]; [exists []; auto|]. destruct IH as (xs & A & B).
    destruct o as [[[[sn f] [gl hl]] y]|]; cbn in Ho.
    - destruct Ho as (_ & _ & _ & _ & _ & Ey). exists (y :: xs). auto.
    - destruct Ho as (y & Ey & Ly). exists (y :: xs). auto. }
  destruct hosts as [|s1 hosts]; [easy|]. destruct xs as [|x1 xs]; [inversion F1|].
  destruct (best_host_all s1 hosts x1 xs F1) as (x & i & Ef & Hi & D).
  unfold find_best_split. cbn [list_index lookup list_lookup mbind res_bind].
  assert (E1 : dec_opt gdec (si_gain s1) = Ok x1) by (inversion F1; assumption). unfold list_index at 1. cbn [lookup list_lookup mbind res_bind]. rewrite E1. cbn [mbind res_bind].
  rewrite Ef. cbn [mbind res_bind fst snd]. rewrite Gg.
  (* the same choice on the list of all entries *)
  set (full := combine (map (option_map fst) offers) (x1 :: xs)).
  assert (FB : first_best (gg + FLOAT_ZERO)%Qc (omap id offers) =
    match first_best (gg + FLOAT_ZERO)%Qc full with Some (Some a, x) => Some (a, x) | _ => None end).
  { rewrite <- first_best_skip.
    - f_equal. unfold full. clear -F2. induction F2 as [|o y offers ys Ho _ IH]; [reflexivity|].
      destruct o as [[o z]|]; cbn; [subst z; f_equal; exact IH|exact IH].
    - intros y Hy. unfold full in Hy. clear -F2 Hy. induction F2 as [|o z offers ys Ho _ IH]; cbn in Hy; [inversion Hy|].
      apply elem_of_cons in Hy as [Hy|Hy]; [|auto]. destruct o as [[o w]|]; cbn in Hy; [discriminate|]. now injection Hy as ->. }
  rewrite FB. clear FB.
  assert (AT : forall j oa y, full !! j = Some (oa, y) <-> (exists o, offers !! j = Some o /\ oa = option_map fst o) /\ (x1 :: xs) !! j = Some y).
  { unfold full. generalize (x1 :: xs) F2. clear. intros ys F2. intros j. revert j. induction F2 as [|o y offers ys Ho _ IH]; intros [|j] oa z; cbn.
    - split; [discriminate|intros [_ [=]]].
    - split; [discriminate|intros [_ [=]]].
    - split; [intros [= <- <-]; eauto|intros [(o' & [= <-] & ->) [= <-]]; reflexivity].
    - apply IH. }
  pose proof (first_best_spec (gg + FLOAT_ZERO)%Qc full) as S.
  destruct (lookup_lt_is_Some_2 offers i) as [o Ho].
  { apply Forall2_length in F2. rewrite F2. eapply lookup_lt_Some; exact Hi. }
  assert (Hfi : full !! i = Some (option_map fst o, x)) by (apply AT; eauto).
  destruct (qleb (x - FLOAT_ZERO)%Qc gg) eqn:Eq; qcases.
  - (* guest *) destruct (first_best _ full) as [[[a|] y]|]; [|reflexivity..].
    destruct S as (G & j & Hj & _). apply AT in Hj as [_ Hj]. destruct (D j y Hj) as [D1 _]. exfalso. qlra.
  - destruct (first_best _ full) as [[oa y]|].
    2: { exfalso. specialize (S i _ _ Hfi). qlra. }
    destruct S as (G & j & Hj & S). pose proof Hj as Hj0. apply AT in Hj as [(o' & Ho' & ->) Hj].
    destruct (D j y Hj) as [D1 D2]. destruct (S i _ _ Hfi) as [S1 S2].
    assert (x = y) as -> by (apply Qcle_antisym; assumption).
    assert (i = j) as ->.
    { destruct (Nat.lt_trichotomy i j) as [L|[->|L]]; [|reflexivity|].
      - specialize (S2 L). exfalso. exact (Qclt_not_eq _ _ S2 eq_refl).
      - specialize (D2 L). exfalso. exact (Qclt_not_eq _ _ D2 eq_refl). }
    rewrite Ho in Ho'. injection Ho' as <-.
    destruct o as [[[[sn f] [gl hl]] z]|]; cbn [option_map fst].
    + destruct (Forall2_lookup_r _ _ _ _ _ F Ho) as (s & Hs & (A1 & A2 & A3 & A4 & A5 & A6)).
      unfold list_index. rewrite Hs. cbn [mbind res_bind]. rewrite A4. cbn [mbind res_bind]. rewrite A5. cbn [mbind res_bind].
      unfold of_offer. cbn [fst snd]. congruence.
    + destruct (Forall2_lookup_l _ _ _ _ _ F2 Ho) as (z & Hz & Lz). cbn in Lz. rewrite Hj in Hz. injection Hz as <-. exfalso. qlra.
Qed.
End Choice.
