(** Merging histograms over any arithmetic, in particular on ciphertexts. *)
From Verif Require Export MergeProofs.
From stdpp Require Import list_numbers.
Local Open Scope nat_scope.

Section Cells.
Context {C : Type} (O : numops C) (rep : C -> Z -> Qc -> Prop) (NL : numlaws O rep) {A : Type} (vg vh : A -> Qc).
Context (points : list (list Qc)) (zero_bins : dict nat nat) (mask : list bool) (node_map : dict nat nat).
Context (HK : length mask = length points) (HZ : forall fid p, points !! fid = Some p -> exists z, dict_get fid zero_bins = Some z /\ z <= length p).
Context (HN : 0 < length node_map) (HM : forall nd i, dict_get nd node_map = Some i -> i < length node_map).
Notation row := (A * hrow C)%type.
Definition gtable (f : nat -> nat -> nat -> trip C) : hist C := map (fun nid => map (fun fid => map (f nid fid) (seq 0 (width points mask fid))) (seq 0 (length points))) (seq 0 (length node_map)).
Definition weight (nid fid b : nat) (rows : list row) : Z := (count_if (fun r => selected node_map r && in_bin zero_bins node_map nid fid b r) rows + extra zero_bins node_map nid fid b rows)%Z.
Definition cell_of (t : trip C) (nid fid b : nat) (rows : list row) : Prop :=
  let P := fun r => selected node_map r && in_bin zero_bins node_map nid fid b r in trep rep t (weight nid fid b rows) (sum_if P (fun r => vg r.1) rows) (sum_if P (fun r => vh r.1) rows) (count_if P rows).
(** A histogram of these rows. *)
Definition hist_of (h : hist C) (rows : list row) : Prop := exists f, h = gtable f /\ forall nid fid p b, nid < length node_map -> points !! fid = Some p -> mask !! fid = Some true -> b <= length p -> cell_of (f nid fid b) nid fid b rows.

Lemma shape_table h t0 : good_shape points (Some mask) node_map h -> h = gtable (fun nid fid b => default t0 (hget h nid fid b)).
Proof.
  intros [L S]. apply list_map_seq; [exact L|]. intros nid HI. destruct (lookup_lt_is_Some_2 h nid) as [fh EF]; [lia|]. rewrite EF. f_equal. destruct (S nid fh EF) as [LF SF].
  apply list_map_seq; [exact LF|]. intros fid HF. destruct (lookup_lt_is_Some_2 fh fid) as [bh EB]; [lia|]. rewrite EB. f_equal. destruct (lookup_lt_is_Some_2 points fid HF) as [p EP]. destruct (SF fid p bh EP EB) as [S1 S2].
  destruct (lookup_lt_is_Some_2 mask fid) as [m EM]; [lia|]. unfold width. rewrite EP, EM. destruct m.
  - apply list_map_seq; [now apply S1|]. intros b Hb. unfold hget. rewrite EF, EB. specialize (S1 EM). destruct (lookup_lt_is_Some_2 bh b) as [t Et]; [lia|]. now rewrite Et.
  - cbn. apply S2. cbn. rewrite EM. discriminate.
Qed.
Lemma batch_hist_of rows : Forall (row_fine rep vg vh points) rows -> exists h, batch_histogram O points zero_bins (Some mask) node_map (map snd rows) = Ok h /\ hist_of h rows.
Proof.
  intros FR. destruct (batch_ok_mask O rep NL vg vh points zero_bins (Some mask) node_map HK HZ HN HM mask rows eq_refl FR) as (h & E & S & D). exists h. split; [exact E|].
  exists (fun nid fid b => default (trip0 O) (hget h nid fid b)). split; [now apply shape_table|]. intros nid fid p b Hn Hp Hm Hb. destruct (D nid fid p b Hn Hp Hm Hb) as (t & Et & T). rewrite Et. exact T.
Qed.
Lemma weight_app nid fid b (l m : list row) : weight nid fid b (l ++ m) = (weight nid fid b l + weight nid fid b m)%Z.
Proof. unfold weight, extra. case_bool_decide; rewrite !count_if_app; lia. Qed.
Lemma aggregate_hist_of h1 h2 l m : hist_of h1 l -> hist_of h2 m -> exists h, aggregate_histogram O h1 h2 = Ok h /\ hist_of h (l ++ m).
Proof.
  intros (f & -> & D1) (g & -> & D2). set (r := fun nid fid b => match trip_add O (f nid fid b) (g nid fid b) with Ok t => t | Err _ => trip0 O end).
  assert (X : forall nid fid p b, nid < length node_map -> points !! fid = Some p -> mask !! fid = Some true -> b <= length p -> trip_add O (f nid fid b) (g nid fid b) = Ok (r nid fid b) /\ cell_of (r nid fid b) nid fid b (l ++ m)).
  { intros nid fid p b Hn Hp Hm Hb. destruct (trip_add_ok O rep NL _ _ _ _ _ _ _ _ _ _ (D1 nid fid p b Hn Hp Hm Hb) (D2 nid fid p b Hn Hp Hm Hb)) as (t & E & T). unfold r. rewrite E. split; [reflexivity|].
    unfold cell_of. now rewrite weight_app, !sum_if_app, count_if_app. }
  exists (gtable r). split.
  - unfold aggregate_histogram, gtable. apply each_seq. intros nid Hn. apply each_seq. intros fid Hf. apply each_seq. intros b Hb. unfold width in Hb. destruct (points !! fid) as [p|] eqn:EP; [|lia]. destruct (mask !! fid) as [[]|] eqn:EM; [|lia..].
    apply (X nid fid p b Hn EP EM). lia.
  - exists r. split; [reflexivity|]. intros nid fid p b Hn Hp Hm Hb. now apply (X nid fid p b).
Qed.
Lemma merge_hist_of : forall (parts : list (list row)) hs h l, hist_of h l -> Forall2 hist_of hs parts -> exists h', foldM (aggregate_histogram O) h hs = Ok h' /\ hist_of h' (l ++ concat parts).
Proof.
  induction parts as [|m parts IH]; intros hs h l H F; inversion F as [|h2 ? hs' ? H2 F']; subst.
  - exists h. split; [reflexivity|]. cbn. now rewrite app_nil_r.
  - destruct (aggregate_hist_of h h2 l m H H2) as (h3 & E & H3). cbn [foldM]. rewrite E. destruct (IH hs' h3 (l ++ m) H3 F') as (h' & E' & H'). exists h'. split; [exact E'|]. cbn [concat]. now rewrite app_assoc.
Qed.
Lemma partitioned_hist_of (parts : list (list row)) : parts <> [] -> Forall (row_fine rep vg vh points) (concat parts) ->
  exists h, partitioned_histogram O points zero_bins (Some mask) node_map (map (map snd) parts) = Ok h /\ hist_of h (concat parts).
Proof.
  intros NE FR. assert (X : exists hs, mapR (batch_histogram O points zero_bins (Some mask) node_map) (map (map snd) parts) = Ok hs /\ Forall2 hist_of hs parts).
  { clear NE. induction parts as [|l parts IH]; [exists []; split; [reflexivity|constructor]|]. cbn [concat] in FR. apply Forall_app in FR as [F1 F2]. destruct (batch_hist_of l F1) as (h & E & H). destruct (IH F2) as (hs & E' & H').
    exists (h :: hs). cbn [map mapR]. rewrite E, E'. split; [reflexivity|now constructor]. }
  destruct X as (hs & E & F). unfold partitioned_histogram. rewrite E. cbn [mbind res_bind]. destruct parts as [|l parts]; [congruence|]. inversion F as [|h ? hs' ? H F']; subst. exact (merge_hist_of parts hs' h l H F').
Qed.
Lemma hist_of_cell h rows nid fid p b : hist_of h rows -> nid < length node_map -> points !! fid = Some p -> mask !! fid = Some true -> b <= length p -> exists t, hget h nid fid b = Some t /\ cell_of t nid fid b rows.
Proof.
  intros (f & -> & D) Hn Hp Hm Hb. exists (f nid fid b). split; [|now apply (D nid fid p b)]. unfold hget, gtable. rewrite map_seq_at by exact Hn. apply lookup_lt_Some in Hp as HF. rewrite map_seq_at by exact HF. apply map_seq_at. unfold width. rewrite Hp, Hm. lia.
Qed.
Lemma weight_bounds nid fid b rows : (0 <= weight nid fid b rows <= 3 * Z.of_nat (length rows))%Z /\ (0 <= count_if (fun r => selected node_map r && in_bin zero_bins node_map nid fid b r) rows <= weight nid fid b rows)%Z.
Proof.
  unfold weight, extra. pose proof (count_if_bound (fun r => selected node_map r && in_bin zero_bins node_map nid fid b r) rows). pose proof (count_if_bound (fun r => selected node_map r && stored node_map nid fid r) rows). case_bool_decide; lia.
Qed.
End Cells.

(** [c] is the row [q] with its gradient and hessian encrypted under [n]. *)
Definition encrypts (n : Z) (q : hrow Qc) (c : hrow cell) : Prop :=
  hr_bins c = hr_bins q /\ hr_state c = hr_state q /\ hr_node c = hr_node q /\ (qabs (hr_g q) <= zq 1)%Qc /\ (qabs (hr_h q) <= zq 1)%Qc /\
  exists r s x y, Z.gcd r n = 1%Z /\ Z.gcd s n = 1%Z /\ pk_encrypt n (PyFloat (hr_g q)) None None r = Ok x /\ pk_encrypt n (PyFloat (hr_h q)) None None s = Ok y /\ hr_g c = CEnc x /\ hr_h c = CEnc y.
Definition encoded (n : Z) (q : hrow Qc) : hrow Qc := HRow (hr_bins q) (hr_state q) (hr_node q) (leaf_value n (hr_g q)) (leaf_value n (hr_h q)).
Lemma sum_if_map {A B} (g : A -> B) (P : B -> bool) (Q : A -> bool) f l : (forall x, x ∈ l -> P (g x) = Q x) -> sum_if P f (map g l) = sum_if Q (fun x => f (g x)) l.
Proof. induction l as [|x l IH]; intros E; [reflexivity|]. cbn [map]. rewrite !sum_if_cons, IH, E; [reflexivity|left|]. intros y I. apply E. now right. Qed.
Lemma count_if_map {A B} (g : A -> B) (P : B -> bool) (Q : A -> bool) l : (forall x, x ∈ l -> P (g x) = Q x) -> count_if P (map g l) = count_if Q l.
Proof. induction l as [|x l IH]; intros E; [reflexivity|]. cbn [map]. rewrite !count_if_cons, IH, E; [reflexivity|left|]. intros y I. apply E. now right. Qed.
