(** Growing a tree on the joined columns gives the tree of the federation. *)
From Verif Require Export JoinSpec.
Local Open Scope nat_scope.

(** ** Choosing from several lists *)
Lemma first_best_app {A} m (l1 l2 : list (A * Qc)) : first_best m (l1 ++ l2) =
  match first_best m l1, first_best m l2 with
  | Some (a, x), Some (b, z) => if qltb x z then Some (b, z) else Some (a, x)
  | Some o, None => Some o
  | None, o => o
  end.
Proof.
  induction l1 as [|[a x] l1 IH]; [cbn; now destruct (first_best m l2)|]. cbn [app first_best]. rewrite IH. clear IH.
  pose proof (first_best_gt m l1) as G1. pose proof (first_best_gt m l2) as G2.
  destruct (first_best m l1) as [[a1 x1]|], (first_best m l2) as [[a2 x2]|]; try (specialize (G1 _ _ eq_refl)); try (specialize (G2 _ _ eq_refl));
    repeat match goal with |- context [qltb ?p ?q] => let E := fresh "E" in destruct (qltb p q) eqn:E end; try reflexivity; exfalso; qcases; qc_push; Lqa.lra.
Qed.

Lemma first_best_concat {A} m (L : list (list (A * Qc))) : first_best m (concat L) = first_best m (omap (first_best m) L).
Proof.
  induction L as [|l L IH]; [reflexivity|]. cbn [concat omap list_omap]. rewrite first_best_app, IH. pose proof (first_best_gt m l) as G.
  destruct (first_best m l) as [[a x]|]; [|reflexivity]. specialize (G _ _ eq_refl). cbn [first_best]. change (list_omap _ _ (first_best m) L) with (omap (first_best m) L).
  destruct (first_best m (omap (first_best m) L)) as [[b z]|]; [destruct (qltb x z); [reflexivity|]|]; rewrite (proj2 (qltb_true m x) G); reflexivity.
Qed.

Lemma combine_app {A B} (l1 l2 : list A) (m1 m2 : list B) : length l1 = length m1 -> combine (l1 ++ l2) (m1 ++ m2) = combine l1 m1 ++ combine l2 m2.
Proof. revert m1. induction l1 as [|a l1 IH]; intros [|b m1] E; try discriminate; [reflexivity|]. cbn. f_equal. apply IH. now injection E. Qed.

Section Cands.
  Context {K : Type} (U : list K).

  Lemma allowed_ext (p q : party K) S S' f f' b : p_min_leaf p = p_min_leaf q -> (forall k, k ∈ U -> S k = S' k) -> (forall k, p_bin p k f = p_bin q k f') -> allowed U p S f b = allowed U q S' f' b.
  Proof.
    intros EL ES EB. unfold allowed. rewrite EL.
    assert (X : count_if (left_of p S f b) U = count_if (left_of q S' f' b) U) by (apply count_if_ext; intros k Hk; unfold left_of; now rewrite EB, ES).
    rewrite X, (count_if_ext S S') by exact ES. reflexivity.
  Qed.

  Lemma cands_ext (p : party K) S S' : (forall k, k ∈ U -> S k = S' k) -> cands U p S = cands U p S'.
  Proof.
    intros ES. unfold cands. rewrite (count_if_ext S S') by exact ES. destruct (_ <? _)%Z; [reflexivity|]. rewrite !flat_map_concat_map. f_equal. apply map_ext. intros [f n]. cbn [fst snd].
    destruct (p_valid p !! f) as [[]|]; [|reflexivity..]. f_equal. apply filter_ext. intros b. now apply allowed_ext.
  Qed.

  Context (ms ml : Z).
  Definition side (ps : list (party K)) : party K := Party (bin_at ps) (concat (map p_nb ps)) (concat (map p_valid ps)) ms ml.
  Definition shift (n : nat) (fb : nat * nat) : nat * nat := (n + fb.1, fb.2).

  Lemma flat_map_shift (F1 F2 : nat * nat -> list (nat * nat)) n : (forall s x, F1 (n + s, x) = map (shift n) (F2 (s, x))) -> forall C s m,
    flat_map F1 (combine (map (Nat.add n) (seq s m)) C) = map (shift n) (flat_map F2 (combine (seq s m) C)).
  Proof.
    intros E C. induction C as [|x C IH]; intros s m; [now rewrite !combine_nil|]. destruct m as [|m]; [reflexivity|]. cbn [seq map combine flat_map]. rewrite map_app, E. f_equal. apply IH.
  Qed.

  Lemma cands_cons p ps S : p_min_sample p = ms -> p_min_leaf p = ml -> length (p_valid p) = length (p_nb p) ->
    cands U (side (p :: ps)) S = cands U p S ++ map (shift (length (p_nb p))) (cands U (side ps) S).
  Proof.
    intros EM EL LV. unfold cands. rewrite EM. cbn [side p_min_sample p_nb p_valid]. destruct (_ <? _)%Z; [reflexivity|].
    cbn [map concat]. rewrite app_length, seq_app. set (n := length (p_nb p)). cbn [Nat.add].
    rewrite combine_app by (unfold n; now rewrite seq_length). rewrite flat_map_app. f_equal.
    - rewrite !flat_map_concat_map. f_equal. apply map_ext_in. intros [f x] Hf. apply in_combine_l, in_seq in Hf. cbn [fst snd]. rewrite lookup_app_l by (rewrite LV; unfold n in Hf; lia).
      destruct (p_valid p !! f) as [[]|]; [|reflexivity..]. f_equal. apply filter_ext. intros b. apply allowed_ext; [exact (eq_sym EL)|reflexivity|]. intros k. cbn [side p_bin bin_at].
      fold n. destruct (Nat.ltb_spec f n); [reflexivity|lia].
    - rewrite <- (Nat.add_0_r n) at 1. rewrite <- fmap_add_seq. change (fmap (Nat.add n)) with (map (Nat.add n)).
      apply flat_map_shift. intros s x. cbn [fst snd]. rewrite lookup_app_r by (rewrite LV; fold n; lia). replace (n + s - length (p_valid p)) with s by (rewrite LV; fold n; lia).
      destruct (concat (map p_valid ps) !! s) as [[]|]; [|reflexivity..]. rewrite map_map. cbn [shift fst snd].
      rewrite (filter_ext _ (allowed U (side ps) S s)); [reflexivity|]. intros b. apply allowed_ext; [reflexivity..|]. intros k. cbn [side p_bin bin_at]. fold n. destruct (Nat.ltb_spec (n + s) n); [lia|]. now replace (n + s - n) with s by lia.
  Qed.
End Cands.

Section Grow.
  Context {K : Type} (U : list K) (lam mi : Qc) (guest : party K) (hosts : list (party K)) (vg vh : K -> Qc).
  Context (L0 : (0 < lam)%Qc) (V2 : forall k, k ∈ U -> (0 <= vh k)%Qc).
  Context (LIM : Forall (fun p => p_min_sample p = p_min_sample guest /\ p_min_leaf p = p_min_leaf guest) hosts) (LV : Forall (fun p => length (p_valid p) = length (p_nb p)) (guest :: hosts)).
  Local Notation ps := (guest :: hosts).
  Local Notation J := (join_parties guest hosts).
  Local Notation side := (side (p_min_sample guest) (p_min_leaf guest)).

  Definition item (own : option nat) (n : nat) (p : party K) (S : K -> bool) (fb : nat * nat) : choice * Qc :=
    (Choice own (n + fb.1) fb.2 (sum_if (left_of p S fb.1 fb.2) vg U) (sum_if (left_of p S fb.1 fb.2) vh U), gain_at U lam vg vh S p fb.1 fb.2).
  Definition items own n p S := map (item own n p S) (cands U p S).

  Lemma sgain_ok p S f b : sgain lam (sum_if S vg U) (sum_if S vh U) (sum_if (left_of p S f b) vg U) (sum_if (left_of p S f b) vh U) = Ok (gain_at U lam vg vh S p f b).
  Proof.
    assert (SP : sum_if S vh U = (sum_if (left_of p S f b) vh U + sum_if (right_of p S f b) vh U)%Qc).
    { apply sum_if_split. intros k _. unfold left_of, right_of. destruct (S k), (_ <=? _); auto. }
    pose proof (sum_if_nonneg (left_of p S f b) vh U V2) as A. pose proof (sum_if_nonneg (right_of p S f b) vh U V2) as B.
    unfold sgain, no_zero_dec. rewrite SP. set (a := sum_if (left_of p S f b) vh U) in *. set (c := sum_if (right_of p S f b) vh U) in *. rewrite zq_0 in *.
    rewrite !bool_decide_eq_false_2; [unfold gain_at; now rewrite SP| | |]; intros E; qlra.
  Qed.

  Lemma propose_ok own p S : propose U lam mi own p S (sum_if S vg U) (sum_if S vh U) (fun L => sum_if L vg U) (fun L => sum_if L vh U) = Ok (first_best mi (items own 0 p S)).
  Proof.
    unfold propose. cbv zeta.
    assert (X : forall l, mapR (fun fb : nat * nat => x ← sgain lam (sum_if S vg U) (sum_if S vh U) (sum_if (left_of p S fb.1 fb.2) vg U) (sum_if (left_of p S fb.1 fb.2) vh U);
      Ok (Choice own fb.1 fb.2 (sum_if (left_of p S fb.1 fb.2) vg U) (sum_if (left_of p S fb.1 fb.2) vh U), x)) l = Ok (map (item own 0 p S) l)).
    { induction l as [|fb l IH]; [reflexivity|]. cbn [mapR]. rewrite sgain_ok. cbn [mbind res_bind]. rewrite IH. reflexivity. }
    cbn [ch_g ch_h]. rewrite X. reflexivity.
  Qed.

  Lemma items_ext own n p S S' : (forall k, k ∈ U -> S k = S' k) -> items own n p S = items own n p S'.
  Proof.
    intros ES. unfold items. rewrite (cands_ext U p S S' ES). apply map_ext. intros [f b]. unfold item, gain_at.
    assert (X : forall v, sum_if (left_of p S f b) v U = sum_if (left_of p S' f b) v U) by (intros v; apply sum_if_ext; intros k Hk; unfold left_of; now rewrite ES).
    assert (Y : forall v, sum_if S v U = sum_if S' v U) by (intros v; now apply sum_if_ext). cbn [fst snd]. now rewrite !X, !Y.
  Qed.

  (** The joined candidates are those of the parties, one after the other. *)
  Fixpoint all_items (n : nat) (l : list (party K)) (S : K -> bool) : list (list (choice * Qc)) :=
    match l with [] => [] | p :: l' => items None n p S :: all_items (n + length (p_nb p)) l' S end.

  Lemma items_side S : forall l n, Forall (fun p => (p_min_sample p = p_min_sample guest /\ p_min_leaf p = p_min_leaf guest) /\ length (p_valid p) = length (p_nb p)) l ->
    items None n (side l) S = concat (all_items n l S).
  Proof.
    induction l as [|p l IH]; intros n F.
    - unfold items, cands. cbn. destruct (_ <? _)%Z; reflexivity.
    - apply Forall_cons in F as [((EM & EL) & LVp) F]. unfold items at 1. rewrite (cands_cons U _ _ p l S EM EL LVp), map_app. cbn [all_items concat]. f_equal.
      + apply map_ext_in. intros [f b] Hf. assert (Lf : f < length (p_nb p)).
        { unfold cands in Hf. destruct (_ <? _)%Z; [destruct Hf|]. apply in_flat_map in Hf as ([f' x] & Hx & Hf). cbn [fst snd] in Hf. apply in_combine_l, in_seq in Hx. destruct (p_valid p !! f') as [[]|]; [|destruct Hf..].
          apply in_map_iff in Hf as (b' & [= <- <-] & _). lia. }
        unfold item, gain_at. cbn [fst snd].
        assert (X : forall v, sum_if (left_of (side (p :: l)) S f b) v U = sum_if (left_of p S f b) v U).
        { intros v. apply sum_if_ext. intros k _. unfold left_of. cbn [JoinProofs.side p_bin bin_at]. destruct (Nat.ltb_spec f (length (p_nb p))); [reflexivity|lia]. }
        now rewrite !X.
      + rewrite map_map, <- (IH (n + length (p_nb p)) F). apply map_ext. intros [f b]. unfold item, gain_at, shift. cbn [fst snd].
        assert (X : forall v, sum_if (left_of (side (p :: l)) S (length (p_nb p) + f) b) v U = sum_if (left_of (side l) S f b) v U).
        { intros v. apply sum_if_ext. intros k _. unfold left_of. cbn [JoinProofs.side p_bin bin_at]. destruct (Nat.ltb_spec (length (p_nb p) + f) (length (p_nb p))); [lia|]. now replace (length (p_nb p) + f - length (p_nb p)) with f by lia. }
        now rewrite !X, Nat.add_assoc.
  Qed.

  Lemma limits : Forall (fun p => (p_min_sample p = p_min_sample guest /\ p_min_leaf p = p_min_leaf guest) /\ length (p_valid p) = length (p_nb p)) ps.
  Proof. apply Forall_and. split; [constructor; [auto|exact LIM]|exact LV]. Qed.

  Lemma joined_best S : guest_best U lam mi J vg vh S = Ok (first_best mi (omap (first_best mi) (all_items 0 ps S))).
  Proof. unfold guest_best. rewrite propose_ok. change J with (side ps). now rewrite items_side, first_best_concat by apply limits. Qed.

  Definition mv (cx : choice * Qc) : choice * Qc := (moved_choice ps cx.1, cx.2).
  Definition host_items (S : K -> bool) (ip : nat * party K) : list (choice * Qc) := items (Some ip.1) 0 ip.2 S.

  Lemma items_moved own p S : items None (offset ps (position own)) p S = map mv (items own 0 p S).
  Proof. unfold items. rewrite map_map. apply map_ext. intros [f b]. reflexivity. Qed.

  Lemma all_items_moved S : forall l n i0, (forall i, i < length l -> offset ps (Datatypes.S (i0 + i)) = n + offset l i) ->
    all_items n l S = map (fun ip => map mv (host_items S ip)) (combine (seq i0 (length l)) l).
  Proof.
    induction l as [|p l IH]; intros n i0 E; [reflexivity|]. cbn [all_items length seq combine map]. f_equal.
    - unfold host_items. cbn [fst snd]. rewrite <- items_moved. cbn [position]. specialize (E 0 ltac:(cbn; lia)). rewrite Nat.add_0_r in E. rewrite E. cbn [offset]. now rewrite Nat.add_0_r.
    - apply IH. intros i Hi. specialize (E (Datatypes.S i) ltac:(cbn; lia)). rewrite <- Nat.add_succ_comm in E. rewrite E. cbn [offset]. lia.
  Qed.

  Local Notation hl S := (map (host_items S) (combine (seq 0 (length hosts)) hosts)).
  Lemma joined_moved S : guest_best U lam mi J vg vh S = Ok (option_map mv (first_best mi (omap (first_best mi) (items None 0 guest S :: hl S)))).
  Proof.
    rewrite joined_best. cbn [all_items]. rewrite (all_items_moved S hosts _ 0) by reflexivity.
    assert (X : items None 0 guest S = map mv (items None 0 guest S)) by exact (items_moved None guest S). rewrite X at 1.
    rewrite <- (map_map (host_items S) (map mv)). change (map mv (items None 0 guest S) :: map (map mv) (hl S)) with (map (map mv) (items None 0 guest S :: hl S)).
    generalize (items None 0 guest S :: hl S) as L. intros L. f_equal. rewrite <- !first_best_concat, <- concat_map. apply (first_best_map (moved_choice ps)).
  Qed.

  Lemma hosts_ok S : mapR (host_best U lam mi vg vh (fun x => x) Ok S (sum_if S vg U) (sum_if S vh U)) (combine (seq 0 (length hosts)) hosts) = Ok (map (first_best mi) (hl S)).
  Proof.
    rewrite map_map. induction (combine (seq 0 (length hosts)) hosts) as [|[i p] l IH]; [reflexivity|]. cbn [mapR map]. unfold host_best at 1. cbn [fst snd]. rewrite propose_ok. cbn [mbind res_bind].
    fold (host_items S (i, p)). change (items (Some i) 0 p S) with (host_items S (i, p)). destruct (first_best mi (host_items S (i, p))) as [[c x]|]; cbn [mbind res_bind]; rewrite IH; reflexivity.
  Qed.

  Lemma first_best_above {A} m m' (l : list (A * Qc)) : (m <= m')%Qc -> first_best m' l = match first_best m l with Some (b, z) => if qltb m' z then Some (b, z) else None | None => None end.
  Proof.
    intros Hm. induction l as [|[a x] l IH]; [reflexivity|]. cbn [first_best]. rewrite IH. clear IH.
    destruct (first_best m l) as [[b z]|]; [destruct (qltb m' z) eqn:E1|];
      repeat match goal with |- context [qltb ?p ?q] => let E := fresh "E" in destruct (qltb p q) eqn:E end; try reflexivity; exfalso; qcases; qc_push; Lqa.lra.
  Qed.

  Lemma best_largest {A} m (l : list (A * Qc)) a x : first_best m l = Some (a, x) -> largest (map snd l) x.
  Proof.
    intros E. pose proof (first_best_spec m l) as S. rewrite E in S. destruct S as (_ & i & Hi & D). split.
    - apply elem_of_list_lookup. exists i. change (map snd l) with (snd <$> l). rewrite list_lookup_fmap, Hi. reflexivity.
    - intros v Hv. apply elem_of_list_fmap in Hv as ([b z] & -> & Hb). apply elem_of_list_lookup in Hb as (j & Hj). apply (D j b z Hj).
  Qed.

  Lemma items_gains own n p S : map snd (items own n p S) = gains_of U lam vg vh p S.
  Proof. unfold items, gains_of. rewrite map_map. reflexivity. Qed.

  Lemma hl_gains S : map snd (concat (hl S)) = concat (map (fun p => gains_of U lam vg vh p S) hosts).
  Proof.
    rewrite concat_map, map_map. f_equal. rewrite (map_ext _ (fun ip => gains_of U lam vg vh ip.2 S)) by (intros [i p]; apply items_gains).
    rewrite <- (map_map snd (fun p => gains_of U lam vg vh p S)). f_equal.
    assert (X : forall (l : list (party K)) a, map snd (combine (seq a (length l)) l) = l) by (induction l as [|p l IH]; intros a; [reflexivity|]; cbn; now rewrite IH). apply X.
  Qed.

  (** The winner of a federation is that of the joined columns. *)
  Lemma winner_joined S o : best_split U lam mi guest hosts vg vh vg vh (fun x => x) Ok S (sum_if S vg U) (sum_if S vh U) = Ok o ->
    (forall m x, largest (gains_of U lam vg vh guest S) m -> largest (concat (map (fun p => gains_of U lam vg vh p S) hosts)) x -> (mi < m)%Qc -> (m < x)%Qc -> (m + FLOAT_ZERO < x)%Qc) ->
    guest_best U lam mi J vg vh S = Ok (option_map mv o).
  Proof.
    pose proof FLOAT_ZERO_pos as FZ. rewrite zq_0 in FZ.
    intros EB CL. unfold best_split, guest_best in EB. rewrite propose_ok in EB. cbn [mbind res_bind] in EB. rewrite hosts_ok in EB. cbn [mbind res_bind] in EB. injection EB as <-.
    rewrite joined_moved. do 2 f_equal.
    assert (X : omap id (map (first_best mi) (hl S)) = omap (first_best mi) (hl S)).
    { generalize (hl S). intros l. induction l as [|a l IH]; [reflexivity|]. cbn. destruct (first_best mi a); [f_equal|]; exact IH. }
    rewrite X. cbn [omap list_omap]. change (list_omap _ _ (first_best mi) (hl S)) with (omap (first_best mi) (hl S)).
    destruct (first_best mi (items None 0 guest S)) as [[a x]|] eqn:Eg.
    - pose proof (first_best_gt _ _ _ _ Eg) as Gx. pose proof (best_largest _ _ _ _ Eg) as Lx. rewrite items_gains in Lx.
      cbn [first_best]. rewrite (first_best_above mi (x + FLOAT_ZERO)) by qlra. destruct (first_best mi (omap (first_best mi) (hl S))) as [[b z]|] eqn:Eh.
      + rewrite <- first_best_concat in Eh. pose proof (best_largest _ _ _ _ Eh) as Lz. rewrite hl_gains in Lz. pose proof (CL x z Lx Lz Gx) as C.
        destruct (qltb x z) eqn:E1.
        * apply qltb_true in E1. now rewrite (proj2 (qltb_true _ _) (C E1)).
        * apply qltb_false in E1. rewrite (proj2 (qltb_true mi x) Gx). destruct (qltb (x + FLOAT_ZERO) z) eqn:E2; [|reflexivity]. apply qltb_true in E2. exfalso. qlra.
      + now rewrite (proj2 (qltb_true mi x) Gx).
    - replace (mi - FLOAT_ZERO + FLOAT_ZERO)%Qc with mi by ring. now destruct (first_best mi (omap (first_best mi) (hl S))).
  Qed.

  Lemma column_offset own p : owner guest hosts own = Some p -> forall f, f < length (p_nb p) -> forall k, bin_at ps k (offset ps (position own) + f) = p_bin p k f.
  Proof.
    assert (X : forall (l : list (party K)) i p, l !! i = Some p -> forall f, f < length (p_nb p) -> forall k, bin_at l k (offset l i + f) = p_bin p k f).
    { induction l as [|q l IH]; intros i p' Hi f Hf k; [now rewrite lookup_nil in Hi|]. destruct i as [|i]; cbn in Hi.
      - injection Hi as ->. cbn [bin_at offset Nat.add]. destruct (Nat.ltb_spec f (length (p_nb p'))); [reflexivity|lia].
      - cbn [bin_at offset]. destruct (Nat.ltb_spec (length (p_nb q) + offset l i + f) (length (p_nb q))); [lia|].
        replace (length (p_nb q) + offset l i + f - length (p_nb q)) with (offset l i + f) by lia. now apply IH. }
    intros Ho. apply X. destruct own as [i|]; exact Ho.
  Qed.

  Lemma cands_fid p S f b : (f, b) ∈ cands U p S -> f < length (p_nb p).
  Proof.
    intros Hf. apply elem_of_list_In in Hf. unfold cands in Hf. destruct (_ <? _)%Z; [destruct Hf|]. apply in_flat_map in Hf as ([f' x] & Hx & Hf). cbn [fst snd] in Hf. apply in_combine_l, in_seq in Hx. destruct (p_valid p !! f') as [[]|]; [|destruct Hf..].
    apply in_map_iff in Hf as (b' & [= <- <-] & _). lia.
  Qed.

  Lemma grow_joined d : forall S S' t, (forall k, k ∈ U -> S k = S' k) ->
    grow U lam mi guest hosts vg vh vg vh (fun x => x) Ok d S (sum_if S vg U) (sum_if S vh U) = Ok t -> clear_cut U lam mi guest hosts vg vh d t S ->
    grow U lam mi J [] vg vh vg vh (fun x => x) Ok d S' (sum_if S vg U) (sum_if S vh U) = Ok (moved_tree ps t).
  Proof.
    induction d as [|d IH]; intros S S' t ES Eg CL.
    all: destruct (grow_inv _ _ _ _ _ _ _ _ _ _ _ _ _ _ _ _ Eg) as (w & o & Ew & Eo & Ht).
    all: assert (SUM : forall v, sum_if S' v U = sum_if S v U) by (intros v; apply sum_if_ext; intros k Hk; now rewrite ES).
    - destruct Ht as [[-> _]|(d' & c & x & l & r & Ed & _)]; [|discriminate]. cbn [grow]. rewrite Ew. cbn [mbind res_bind].
      unfold best_split. cbn [length seq combine mapR]. unfold guest_best. rewrite propose_ok. reflexivity.
    - destruct CL as [CN CL]. pose proof (winner_joined S o Eo CN) as WJ.
      assert (WJ' : best_split U lam mi J [] vg vh vg vh (fun x => x) Ok S' (sum_if S vg U) (sum_if S vh U) = Ok (option_map mv o)).
      { unfold best_split. cbn [length seq combine mapR mbind res_bind]. revert WJ. unfold guest_best. rewrite !propose_ok. rewrite (items_ext None 0 J S' S) by (intros; now rewrite ES).
        intros [= ->]. cbn [mbind res_bind omap list_omap first_best]. reflexivity. }
      cbn [grow]. rewrite Ew. cbn [mbind res_bind]. rewrite WJ'. cbn [mbind res_bind].
      destruct Ht as [[-> Hs]|(d' & c & x & l & r & Ed & -> & Hx & El & Er & ->)].
      + destruct Hs as [|Hs]; [discriminate|]. destruct o as [[c x]|]; [|reflexivity]. cbn [option_map mv fst snd]. now rewrite Hs.
      + injection Ed as <-. cbn [option_map mv fst snd]. rewrite Hx. destruct (best_choice _ _ _ _ _ _ _ _ _ _ _ _ _ _ _ _ Eo) as (p & Ho & Hfb & Hc). destruct (CL p Ho) as [CLl CLr].
        assert (Xs : ch_g c = sum_if (left_of p S (ch_fid c) (ch_bin c)) vg U /\ ch_h c = sum_if (left_of p S (ch_fid c) (ch_bin c)) vh U).
        { revert Hc. unfold goes. rewrite Ho. destruct (ch_own c) as [i|]; intros Hc; intuition congruence. }
        destruct Xs as [Xg Xh].
        assert (SP : forall v, (sum_if S v U - sum_if (left_of p S (ch_fid c) (ch_bin c)) v U)%Qc = sum_if (right_of p S (ch_fid c) (ch_bin c)) v U).
        { intros v. rewrite (sum_if_split S (left_of p S (ch_fid c) (ch_bin c)) (right_of p S (ch_fid c) (ch_bin c))); [ring|]. intros k _. unfold left_of, right_of. destruct (S k), (_ <=? _); auto. }
        assert (BN : forall k, p_bin J k (ch_fid (moved_choice ps c)) = p_bin p k (ch_fid c)) by (intros k; apply (column_offset _ _ Ho); eapply cands_fid; eauto).
        unfold goes in El, Er |- *. rewrite Ho in El, Er. cbn [owner moved_choice ch_own ch_g ch_h] in *. rewrite Xg, Xh, !SP in *.
        assert (NL : forall k, k ∈ U -> left_of p S (ch_fid c) (ch_bin c) k = left_of J S' (ch_fid (moved_choice ps c)) (ch_bin (moved_choice ps c)) k) by (intros k Hk; unfold left_of; rewrite BN, ES by exact Hk; reflexivity).
        assert (NR : forall k, k ∈ U -> right_of p S (ch_fid c) (ch_bin c) k = right_of J S' (ch_fid (moved_choice ps c)) (ch_bin (moved_choice ps c)) k) by (intros k Hk; unfold right_of; rewrite BN, ES by exact Hk; reflexivity).
        pose proof (IH _ _ _ NL El CLl) as IL. pose proof (IH _ _ _ NR Er CLr) as IR. cbn [moved_choice ch_fid ch_bin] in IL, IR |- *. rewrite IL. cbn [mbind res_bind]. rewrite IR. cbn [mbind res_bind moved_tree]. unfold moved_choice. now rewrite Xg, Xh.
  Qed.

  Lemma learn_joined d t : learn U lam mi guest hosts vg vh vg vh (fun x => x) Ok d = Ok t -> clear_cut U lam mi guest hosts vg vh d t (fun _ => true) ->
    learn U lam mi J [] vg vh vg vh (fun x => x) Ok d = Ok (moved_tree ps t).
  Proof. intros Et CL. unfold learn. apply (grow_joined d (fun _ => true) (fun _ => true)); auto. Qed.

  (** Both trees give every row the same weight. *)
  Lemma route_moved d : forall S G H t, grow U lam mi guest hosts vg vh vg vh (fun x => x) Ok d S G H = Ok t -> forall k, route J [] (moved_tree ps t) k = route guest hosts t k.
  Proof.
    induction d as [|d IH]; intros S G H t Eg k; destruct (grow_inv _ _ _ _ _ _ _ _ _ _ _ _ _ _ _ _ Eg) as (w & o & Ew & Eo & [[-> _]|(d' & c & x & l & r & Ed & -> & Hx & El & Er & ->)]); try reflexivity; try discriminate.
    injection Ed as <-. destruct (best_choice _ _ _ _ _ _ _ _ _ _ _ _ _ _ _ _ Eo) as (p & Ho & Hfb & _). cbn [moved_tree route]. rewrite (IH _ _ _ _ El), (IH _ _ _ _ Er).
    assert (X : goes J [] left_of (fun _ => true) (moved_choice ps c) k = goes guest hosts left_of (fun _ => true) c k); [|now rewrite X].
    unfold goes. rewrite Ho. cbn [owner moved_choice ch_own]. unfold left_of. cbn [moved_choice ch_fid ch_bin]. change (p_bin J k (offset ps (position (ch_own c)) + ch_fid c)) with (bin_at ps k (offset ps (position (ch_own c)) + ch_fid c)).
    rewrite (column_offset _ _ Ho) by (eapply cands_fid; eauto). reflexivity.
  Qed.
End Grow.
