(** Proofs about merging histograms. *)
From Verif Require Export MergeModel HistSpec HistProofs HistPaillier P_Hist.
From stdpp Require Import list_numbers.
Local Open Scope nat_scope.

Lemma mapR_seq {A B} (f : A -> res B) (g : nat -> A) (r : nat -> B) n s : (forall i, s <= i < s + n -> f (g i) = Ok (r i)) -> mapR f (map g (seq s n)) = Ok (map r (seq s n)).
Proof. revert s. induction n as [|n IH]; intros s H; [reflexivity|]. cbn [seq map mapR]. rewrite H by lia. rewrite IH; [reflexivity|]. intros i R. apply H. lia. Qed.
Lemma combine_map_seq {A} (g : nat -> A) n s : combine (seq s n) (map g (seq s n)) = map (fun i => (i, g i)) (seq s n).
Proof. revert s. induction n as [|n IH]; intros s; [reflexivity|]. cbn [seq map combine]. now rewrite IH. Qed.
Lemma map_seq_at {A} (g : nat -> A) n i : i < n -> map g (seq 0 n) !! i = Some (g i).
Proof. intros H. rewrite list_lookup_fmap. rewrite lookup_seq_lt by exact H. reflexivity. Qed.
Lemma each_seq {A} (f : A -> A -> res A) (g1 g2 r : nat -> A) n : (forall i, i < n -> f (g1 i) (g2 i) = Ok (r i)) -> each f (map g1 (seq 0 n)) (map g2 (seq 0 n)) = Ok (map r (seq 0 n)).
Proof.
  intros H. unfold each. rewrite map_length, seq_length, combine_map_seq. apply mapR_seq. intros i R. cbn [fst snd]. unfold list_index. rewrite map_seq_at by lia. cbn [mbind res_bind]. apply H. lia.
Qed.
Lemma list_map_seq {A} (l : list A) (g : nat -> A) n : length l = n -> (forall i, i < n -> l !! i = Some (g i)) -> l = map g (seq 0 n).
Proof.
  intros L H. apply list_eq. intros i. destruct (decide (i < n)) as [X|X].
  - now rewrite H, map_seq_at.
  - rewrite !lookup_ge_None_2; [reflexivity|rewrite map_length, seq_length; lia|lia].
Qed.

Section Table.
Context (points : list (list Qc)) (zero_bins : dict nat nat) (mask : list bool) (node_map : dict nat nat).
Definition width (fid : nat) : nat := match points !! fid, mask !! fid with Some p, Some true => S (length p) | _, _ => 0 end.
Definition table (f : nat -> nat -> nat -> trip Qc) : hist Qc := map (fun nid => map (fun fid => map (f nid fid) (seq 0 (width fid))) (seq 0 (length points))) (seq 0 (length node_map)).
Definition holds_of (rows : list (hrow Qc)) (nid fid b : nat) : trip Qc :=
  let P := fun r => in_node node_map nid (hr_bins r, (hr_state r, hr_node r)) && (bin_of zero_bins fid (hr_bins r) =? b) in Trip (sum_if P hr_g rows) (sum_if P hr_h rows) (count_if P rows).
Definition data_of (rows : list (hrow Qc)) := map (fun r => (r, (hr_bins r, (hr_state r, hr_node r)))) rows.

Lemma batch_table rows : hist_ok (data_of rows) points zero_bins mask node_map -> batch_histogram qops points zero_bins (Some mask) node_map rows = Ok (table (holds_of rows)).
Proof.
  intros HO. destruct (C31_bins points zero_bins mask node_map rows HO) as (h & E & L & D). rewrite E. f_equal.
  destruct HO as [HN HM HK HZ HR HB].
  assert (IN : forall r, r ∈ rows -> (r, (hr_bins r, (hr_state r, hr_node r))) ∈ data_of rows) by (intros r Hr; apply elem_of_list_fmap; eauto).
  destruct (batch_ok_mask qops (fun c _ q => c = q) qops_laws (A := hrow Qc) hr_g hr_h points zero_bins (Some mask) node_map HK HZ HN HM mask (map (fun r => (r, r)) rows) eq_refl) as (h' & E' & [_ S] & _).
  { apply Forall_forall. intros [r r'] Hin. apply elem_of_list_fmap in Hin as (x & [= -> ->] & Hin).
    split; [exact (HR _ _ (IN x Hin))|]. split; [reflexivity|]. split; [reflexivity|]. intros fid b Hb. exact (HB _ _ fid b (IN x Hin) Hb). }
  rewrite map_map, map_id, E in E'. injection E' as <-.
  apply list_map_seq; [exact L|]. intros nid HI. destruct (lookup_lt_is_Some_2 h nid) as [fh EF]; [lia|]. rewrite EF. f_equal. destruct (S nid fh EF) as [LF SF].
  apply list_map_seq; [exact LF|]. intros fid HF. destruct (lookup_lt_is_Some_2 fh fid) as [bh EB]; [lia|]. rewrite EB. f_equal. destruct (lookup_lt_is_Some_2 points fid HF) as [p EP]. destruct (SF fid p bh EP EB) as [S1 S2].
  destruct (lookup_lt_is_Some_2 mask fid) as [m EM]; [lia|]. unfold width. rewrite EP, EM. destruct m.
  - apply list_map_seq; [now apply S1|]. intros b Hb. specialize (D nid fid p b HI EP EM ltac:(lia)). unfold hget in D. rewrite EF, EB in D. exact D.
  - cbn. apply S2. cbn. rewrite EM. discriminate.
Qed.
Lemma aggregate_table f1 f2 : aggregate_histogram qops (table f1) (table f2) =
  Ok (table (fun nid fid b => Trip (tg (f1 nid fid b) + tg (f2 nid fid b))%Qc (th (f1 nid fid b) + th (f2 nid fid b))%Qc (tc (f1 nid fid b) + tc (f2 nid fid b))%Z)).
Proof. unfold aggregate_histogram, table. apply each_seq. intros nid _. apply each_seq. intros fid _. apply each_seq. reflexivity. Qed.
Lemma table_ext f g : (forall nid fid b, f nid fid b = g nid fid b) -> table f = table g.
Proof. intros H. unfold table. apply map_ext. intros nid. apply map_ext. intros fid. apply map_ext. intros b. apply H. Qed.
Lemma aggregate_rows a b : aggregate_histogram qops (table (holds_of a)) (table (holds_of b)) = Ok (table (holds_of (a ++ b))).
Proof. rewrite aggregate_table. f_equal. apply table_ext. intros nid fid c. unfold holds_of. cbn [tg th tc]. now rewrite !sum_if_app, count_if_app. Qed.
Lemma hist_ok_sub rows rows' : (forall r, r ∈ rows' -> r ∈ rows) -> hist_ok (data_of rows) points zero_bins mask node_map -> hist_ok (data_of rows') points zero_bins mask node_map.
Proof.
  intros S [HN HM HK HZ HR HB]. assert (IN : forall k r, (k, r) ∈ data_of rows' -> (k, r) ∈ data_of rows).
  { intros k r I. apply elem_of_list_fmap in I as (x & -> & I). apply elem_of_list_fmap. eauto. }
  split; try assumption; [intros k r I; eapply HR, IN, I|intros k r fid b I; eapply HB, IN, I].
Qed.
Lemma merge_fold parts : forall a, foldM (aggregate_histogram qops) (table (holds_of a)) (map (fun l => table (holds_of l)) parts) = Ok (table (holds_of (a ++ concat parts))).
Proof. induction parts as [|l parts IH]; intros a; cbn [map foldM concat]; [now rewrite app_nil_r|]. rewrite aggregate_rows, IH. now rewrite app_assoc. Qed.
Lemma mapR_all {A B} (f : A -> res B) (g : A -> B) l : (forall x, x ∈ l -> f x = Ok (g x)) -> mapR f l = Ok (map g l).
Proof. induction l as [|x l IH]; intros H; [reflexivity|]. cbn [mapR map]. rewrite H by left. rewrite IH; [reflexivity|]. intros y I. apply H. now right. Qed.
Lemma partitioned_table parts : parts <> [] -> hist_ok (data_of (concat parts)) points zero_bins mask node_map ->
  partitioned_histogram qops points zero_bins (Some mask) node_map parts = Ok (table (holds_of (concat parts))).
Proof.
  intros NE HO. unfold partitioned_histogram. rewrite (mapR_all _ (fun l => table (holds_of l))).
  - cbn [mbind res_bind]. destruct parts as [|l parts]; [congruence|]. cbn [map concat]. apply merge_fold.
  - intros l I. apply batch_table. eapply hist_ok_sub; [|exact HO]. intros r R. apply elem_of_list_In, in_concat. exists l. split; now apply elem_of_list_In.
Qed.
Lemma table_perm a b : Permutation a b -> table (holds_of a) = table (holds_of b).
Proof. intros P. apply table_ext. intros nid fid c. unfold holds_of. now rewrite (sum_if_perm _ hr_g a b P), (sum_if_perm _ hr_h a b P), (count_if_perm _ a b P). Qed.
End Table.
