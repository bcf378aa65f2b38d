(** The rows of two files side by side, and counting right answers. *)
From Verif Require Export XgbMain ScriptProofs.
From Verif Require Import P_Script P_Input.
From Verif Require Import PipeSpec InputSpec.
Local Open Scope nat_scope.

Definition glue (grecs hrecs : list (record Qc)) : list (record Qc) :=
  imap (fun i g => Rec (r_id g) (r_label g) (r_cells g ++ r_cells (rec_at hrecs i))) grecs.
Lemma glue_lookup grecs hrecs pos : glue grecs hrecs !! pos = (fun g => Rec (r_id g) (r_label g) (r_cells g ++ r_cells (rec_at hrecs pos))) <$> grecs !! pos.
Proof. unfold glue. now rewrite list_lookup_imap. Qed.
Lemma glue_length grecs hrecs : length (glue grecs hrecs) = length grecs. Proof. unfold glue. apply imap_length. Qed.
Lemma glue_entry grecs hrecs w pos f : (forall g, grecs !! pos = Some g -> length (r_cells g) = w) -> pos < length grecs -> entry (glue grecs hrecs) pos f = beside w grecs hrecs pos f.
Proof.
  intros W L. destruct (lookup_lt_is_Some_2 _ _ L) as [g Hg]. specialize (W g Hg). unfold beside, entry. rewrite glue_lookup, Hg. cbn [fmap option_fmap option_map]. unfold numbers. cbn [r_cells]. rewrite map_app.
  destruct (decide (f < w)) as [Lf|Lf].
  - rewrite lookup_app_l by (rewrite map_length; lia). reflexivity.
  - rewrite lookup_app_r by (rewrite map_length; lia). rewrite map_length, W. unfold rec_at. destruct (hrecs !! pos); reflexivity.
Qed.
Lemma glue_sheet py_float n n' gh hh grecs hrecs : sheet py_float n gh grecs -> sheet py_float n' hh hrecs -> n <= n' -> NoDup (gh ++ hh) -> (Z.of_nat (length (gh ++ hh)) <= 2 ^ 31)%Z ->
  sheet py_float n (gh ++ hh) (glue grecs hrecs).
Proof.
  intros [A1 A2 A3 A4 A5] [B1 B2 B3 B4 B5] LE ND LN.
  assert (X : forall r, r ∈ glue grecs hrecs -> exists g h, g ∈ grecs /\ h ∈ hrecs /\ r = Rec (r_id g) (r_label g) (r_cells g ++ r_cells h)).
  { intros r Hr. apply elem_of_lookup_imap in Hr as (i & g & -> & Hg). assert (Li : i < length hrecs) by (apply lookup_lt_Some in Hg; lia). destruct (lookup_lt_is_Some_2 _ _ Li) as [h Hh].
    exists g, h. split; [eapply elem_of_list_lookup_2; eauto|]. split; [eapply elem_of_list_lookup_2; eauto|]. unfold rec_at. now rewrite Hh. }
  rewrite Forall_forall in A2, A3, B2, B3. split.
  - now rewrite glue_length.
  - apply Forall_forall. intros r Hr. destruct (X r Hr) as (g & h & Hg & Hh & ->). cbn [r_cells]. rewrite !app_length, (A2 g Hg), (B2 h Hh). reflexivity.
  - apply Forall_forall. intros r Hr. destruct (X r Hr) as (g & h & Hg & Hh & ->). unfold denotes. cbn [r_cells]. apply Forall_app. split; [now apply A3|now apply B3].
  - exact ND.
  - rewrite app_length in *. lia.
Qed.

Section Instances.
  Context (hrecs : list (record Qc)).
  Local Notation pick ids labels := (fun '(i, f) => a ← list_index ids i; f2 ← list_index (map numbers hrecs) i; l ← list_index labels i; Ok (Inst a (f ++ f2) (Some l))).
  Lemma both_instances (grecs : list (record Qc)) (ids labels : list text) n :
    (forall i r, grecs !! i = Some r -> ids !! (n + i) = Some (r_id r) /\ labels !! (n + i) = Some (r_label r)) -> n + length grecs <= length hrecs ->
    mapR (pick ids labels) (imap (fun i f => (n + i, f)) (map numbers grecs)) =
      Ok (map guest_inst (imap (fun i g => Rec (r_id g) (r_label g) (r_cells g ++ r_cells (rec_at hrecs (n + i)))) grecs)).
  Proof.
    revert n. induction grecs as [|r recs IH]; intros n HI HL; [done|]. cbn [map imap mapR]. cbn [length] in HL.
    destruct (HI 0 r eq_refl) as [E1 E2]. assert (Ln : n + 0 < length hrecs) by lia. destruct (lookup_lt_is_Some_2 _ _ Ln) as [h Hh].
    assert (E3 : map numbers hrecs !! (n + 0) = Some (numbers h)) by (change (@map (record Qc) (list Qc)) with (@fmap list list_fmap (record Qc) (list Qc)); now rewrite list_lookup_fmap, Hh).
    unfold list_index at 1 2 3. rewrite E1, E2, E3. cbn [mbind res_bind].
    rewrite (imap_ext _ (fun i f => (S n + i, f))).
    - rewrite (IH (S n)); [| |lia].
      + cbn [mbind res_bind]. f_equal. f_equal.
        * unfold guest_inst, numbers, rec_at. cbn [r_id r_label r_cells]. now rewrite Hh, map_app.
        * f_equal. apply imap_ext. intros i g _. cbn. now replace (n + S i) with (S (n + i)) by lia.
      + intros i r' Hr. specialize (HI (S i) r' Hr). by replace (S n + i) with (n + S i) by lia.
    - intros i f _. cbn. f_equal. lia.
  Qed.
  Lemma short_instances (grecs : list (record Qc)) (ids labels : list text) n :
    (forall i r, grecs !! i = Some r -> ids !! (n + i) = Some (r_id r) /\ labels !! (n + i) = Some (r_label r)) -> n <= length hrecs -> length hrecs < n + length grecs ->
    mapR (pick ids labels) (imap (fun i f => (n + i, f)) (map numbers grecs)) = Err IndexError.
  Proof.
    revert n. induction grecs as [|r recs IH]; intros n HI HN HL; [cbn in HL; lia|]. cbn [map imap mapR]. cbn [length] in HL.
    destruct (HI 0 r eq_refl) as [E1 E2]. unfold list_index at 1 2 3. rewrite E1. cbn [mbind res_bind]. destruct (map numbers hrecs !! (n + 0)) as [h|] eqn:Eh; [|reflexivity].
    apply lookup_lt_Some in Eh. rewrite map_length in Eh. rewrite E2. cbn [mbind res_bind].
    rewrite (imap_ext _ (fun i f => (S n + i, f))).
    - rewrite (IH (S n)); [reflexivity| |lia|lia]. intros i r' Hr. specialize (HI (S i) r' Hr). by replace (S n + i) with (n + S i) by lia.
    - intros i f _. cbn. f_equal. lia.
  Qed.
End Instances.

Section Tables.
  Context {G : Type} (seeded : Z -> G) (below : G -> nat -> nat * G) (py_float : text -> option Qc).
  Context (gfile hfile : text) (gh hh : list text) (grecs hrecs : list (record Qc)).
  Context (GF : exists i y, grid ((i :: y :: gh) :: map with_label grecs) /\ stored ((i :: y :: gh) :: map with_label grecs) gfile).
  Context (HF : exists c, grid ((c :: hh) :: map without_label hrecs) /\ stored ((c :: hh) :: map without_label hrecs) hfile).
  Context (GD : Forall (denotes py_float) grecs) (HD : Forall (denotes py_float) hrecs).

  Lemma both_read : read_with_label py_float gfile = Ok (gh, map r_id grecs, map numbers grecs, map r_label grecs) /\ read_without_label py_float hfile = Ok (hh, map r_id hrecs, map numbers hrecs).
  Proof.
    destruct GF as (i & y & G1 & G2), HF as (c & H1 & H2). split.
    - apply (read_with_label_iff py_float _ gfile _ _ _ _ G1 (csv_rows_stored _ _ G1 G2)). exists i, y, grecs. by split_and!.
    - apply (read_without_label_iff py_float _ hfile _ _ _ H1 (csv_rows_stored _ _ H1 H2)). exists c, hrecs. by split_and!.
  Qed.
  Lemma at_ids : forall i r, grecs !! i = Some r -> map r_id grecs !! (0 + i) = Some (r_id r) /\ map r_label grecs !! (0 + i) = Some (r_label r).
  Proof. intros k r Hr. cbn. change (@map (record Qc) text) with (@fmap list list_fmap (record Qc) text). by rewrite !list_lookup_fmap, Hr. Qed.
  Lemma xgb_tables_eq ratio gen tr te g1 : length grecs <= length hrecs -> data_split seeded below (seq 0 (length grecs)) ratio true (Some 2%Z) gen = Ok (tr, te, g1) ->
    xgb_tables seeded below py_float gfile hfile ratio gen =
      Ok (gh ++ hh, dt_new_unkeyed (map guest_inst (map (rec_at (glue grecs hrecs)) tr)), dt_new_unkeyed (map guest_inst (map (rec_at (glue grecs hrecs)) te))).
  Proof.
    intros LE SP. destruct both_read as [E1 E2]. unfold xgb_tables. rewrite E1. cbn [mbind res_bind]. rewrite E2. cbn [mbind res_bind].
    pose proof (both_instances hrecs grecs _ _ 0 at_ids ltac:(cbn; lia)) as EI. cbn [Nat.add] in EI. rewrite EI. cbn [mbind res_bind]. fold (glue grecs hrecs).
    rewrite <- (rec_at_all (glue grecs hrecs)) at 1. rewrite glue_length, !data_split_map, SP. reflexivity.
  Qed.
  Lemma xgb_tables_short ratio gen : length hrecs < length grecs -> xgb_tables seeded below py_float gfile hfile ratio gen = Err IndexError.
  Proof.
    intros LT. destruct both_read as [E1 E2]. unfold xgb_tables. rewrite E1. cbn [mbind res_bind]. rewrite E2. cbn [mbind res_bind].
    pose proof (short_instances hrecs grecs _ _ 0 at_ids ltac:(cbn; lia) ltac:(cbn; lia)) as EI. cbn [Nat.add] in EI. rewrite EI. reflexivity.
  Qed.
End Tables.

(** The share of right answers. *)
Lemma counted (out : dtable nat (label * label * Qc)) (te : list nat) (L : nat -> label) (A : nat -> label -> Qc -> Prop) :
  NoDup (dt_keys out) -> NoDup te -> te <> [] -> (Z.of_nat (length te) <= 2 ^ 53)%Z -> (forall pos, pos ∈ te -> exists c x, A pos c x) ->
  (forall k l c x, (k, (l, c, x)) ∈ dt_data out <-> exists pos, te !! k = Some pos /\ l = L pos /\ A pos c x) ->
  exists right, NoDup right /\ (forall pos, pos ∈ right <-> pos ∈ te /\ exists x, A pos (L pos) x) /\
    accuracy (DT (map (fun kv => (kv.1, kv.2.1)) (dt_data out))) = Ok (Some (fround (zq (Z.of_nat (length right)) / zq (Z.of_nat (length te)))%Qc)).
Proof.
  intros WO NT NE LE TOT GO.
  assert (KO : forall k, k ∈ dt_keys out <-> k < length te).
  { intros k. unfold dt_keys. rewrite elem_of_list_fmap. split.
    - intros ([k' [[l c] x]] & -> & Hk). apply GO in Hk as (pos & Hk & _). cbn. eapply lookup_lt_Some; eauto.
    - intros Hk. destruct (lookup_lt_is_Some_2 te k Hk) as [pos Hp]. destruct (TOT pos) as (c & x & HA); [eapply elem_of_list_lookup_2; eauto|].
      exists (k, (L pos, c, x)). split; [reflexivity|]. apply GO. eauto. }
  assert (LO : length (dt_data out) = length te).
  { rewrite <- (fmap_length fst (dt_data out)). change (length (dt_keys out) = length te). rewrite <- (seq_length (length te) 0). apply Permutation_length, NoDup_Permutation; [exact WO|apply NoDup_ListNoDup, seq_NoDup|].
    intros k. rewrite KO, elem_of_seq. lia. }
  set (rows := DT (map (fun kv : nat * (label * label * Qc) => (kv.1, kv.2.1)) (dt_data out)) : dtable nat (label * label)).
  destruct (C61_accuracy nat label _ rows) as (acc & EA & AC & _).
  { cbn [dt_data rows]. rewrite map_map. intros X. apply map_eq_nil in X. rewrite X in LO. cbn in LO. destruct te; [congruence|discriminate]. }
  { cbn [dt_data rows]. rewrite !map_length. fold (dt_data out). rewrite LO. lia. }
  set (hits := filter (fun kv : nat * (label * label * Qc) => kv.2.1.1 = kv.2.1.2) (dt_data out)).
  set (right := map (fun kv : nat * (label * label * Qc) => nth kv.1 te 0) hits). exists right. split; [|split].
  - unfold right. apply NoDup_fmap_2_strong.
    + intros [k1 [[l1 c1] x1]] [k2 [[l2 c2] x2]] H1 H2 EQ. apply elem_of_list_filter in H1 as [_ H1]. apply elem_of_list_filter in H2 as [_ H2].
      pose proof H1 as G1. pose proof H2 as G2. apply GO in G1 as (p1 & K1 & _). apply GO in G2 as (p2 & K2 & _). cbn in EQ. rewrite (nth_lookup_Some te k1 0 p1 K1), (nth_lookup_Some te k2 0 p2 K2) in EQ. subst p2.
      assert (KK : k1 = k2) by (exact (NoDup_lookup te k1 k2 p1 NT K1 K2)). subst k2. assert (X : tget out k1 = Some (l1, c1, x1)) by (apply tget_elem; auto). assert (Y : tget out k1 = Some (l2, c2, x2)) by (apply tget_elem; auto). congruence.
    + apply NoDup_filter. apply (NoDup_fmap_1 fst). exact WO.
  - intros pos. unfold right. rewrite elem_of_list_fmap. split.
    + intros ([k [[l c] x]] & -> & Hk). apply elem_of_list_filter in Hk as [E1 Hk]. cbn in E1. subst c. apply GO in Hk as (pos & Hp & -> & HA). cbn.
      rewrite (nth_lookup_Some te k 0 pos Hp). split; [eapply elem_of_list_lookup_2; eauto|]. eauto.
    + intros (Hp & x & HA). apply elem_of_list_lookup in Hp as [k Hk]. exists (k, (L pos, L pos, x)). cbn. split; [symmetry; now apply nth_lookup_Some|].
      apply elem_of_list_filter. split; [reflexivity|]. apply GO. eauto.
  - assert (AE : length (filter (fun r : label * label => r.1 = r.2) (map snd (dt_data rows))) = length right).
    { unfold right, hits. rewrite map_length. cbn [dt_data rows]. rewrite map_map. cbn [snd]. apply hits_length. }
    assert (LR : length (map snd (dt_data rows)) = length te) by (cbn [dt_data rows]; rewrite !map_length; exact LO).
    rewrite AE, LR in AC. fold rows. rewrite EA. now rewrite AC.
Qed.
