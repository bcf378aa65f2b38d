(** C74-C75: the guest's histograms and split search in double arithmetic. *)
From Verif Require Import FloatSplitMain P_Hist.
Local Open Scope nat_scope.

(** Gradients and Hessians as the losses give them: doubles between -1 and 1 and between 0 and 1. *)
Definition unit_doubles {K} (vg vh : K -> Qc) (ks : list K) : Prop :=
  forall k, k ∈ ks -> is_double (vg k) /\ is_double (vh k) /\ (qabs (vg k) <= 1)%Qc /\ (0 <= vh k)%Qc /\ (vh k <= 1)%Qc.

(** C74. With n rows, at most 2^51 / 3 of them, every accumulated sum of the guest's histogram is within 2^-52 (3 n)^2 of the
    exact sum over the rows, and every count is exact. *)
Theorem C74_near {K} `{EqDecision K} (vg vh : K -> Qc) data (gh : dtable K (Qc * Qc)) points zero_bins mask node_map :
  let n := Z.of_nat (length (dt_data data)) in let err := (p2 (-52) * (zq (3 * n) * zq (3 * n)))%Qc in
  dt_wf data -> dt_wf gh -> (forall k, k ∈ dt_keys data -> k ∈ dt_keys gh) ->
  (forall k c, (k, c) ∈ dt_data gh -> c = (vg k, vh k)) -> hist_ok (dt_data data) points zero_bins mask node_map ->
  unit_doubles vg vh (dt_keys gh) -> (3 * n <= 2 ^ 51)%Z ->
  exists h, get_histograms fops data gh points zero_bins (Some mask) node_map = Ok h /\
    forall nid fid p b, nid < length node_map -> points !! fid = Some p -> mask !! fid = Some true -> b <= length p ->
      exists t, hget h nid fid b = Some t /\
        (qabs (tg t - left_sum (dt_data data) zero_bins node_map nid vg fid b) <= err)%Qc /\
        (qabs (th t - left_sum (dt_data data) zero_bins node_map nid vh fid b) <= err)%Qc /\
        tc t = left_rows (dt_data data) zero_bins node_map nid fid b.
Proof.
  intros n err Wd Wg Keys GH HO V Hn. destruct (near_cells vg vh data gh points zero_bins mask node_map Wd Wg Keys GH HO V Hn) as (h & E & _ & D).
  exists h. split; [exact E|]. exact D.
Qed.
Print Assumptions C74_near.

(** If all numbers are multiples a 2^t with |a| <= M and 3 n M <= 2^53, as in a first round with two classes, no digit is lost. *)
Theorem C74_exact {K} `{EqDecision K} (vg vh : K -> Qc) data (gh : dtable K (Qc * Qc)) points zero_bins mask node_map t M :
  let n := Z.of_nat (length (dt_data data)) in
  dt_wf data -> dt_wf gh -> (forall k, k ∈ dt_keys data -> k ∈ dt_keys gh) ->
  (forall k c, (k, c) ∈ dt_data gh -> c = (vg k, vh k)) -> hist_ok (dt_data data) points zero_bins mask node_map ->
  (forall k, k ∈ dt_keys gh -> exists a b, vg k = (zq a * p2 t)%Qc /\ vh k = (zq b * p2 t)%Qc /\ (Z.abs a <= M)%Z /\ (Z.abs b <= M)%Z) ->
  (0 <= M)%Z -> (3 * n * M <= 2 ^ 53)%Z ->
  exists h, get_histograms fops data gh points zero_bins (Some mask) node_map = Ok h /\
    forall nid fid p b, nid < length node_map -> points !! fid = Some p -> mask !! fid = Some true -> b <= length p ->
      hget h nid fid b = Some (Trip (left_sum (dt_data data) zero_bins node_map nid vg fid b) (left_sum (dt_data data) zero_bins node_map nid vh fid b)
                                    (left_rows (dt_data data) zero_bins node_map nid fid b)).
Proof.
  intros n Wd Wg Keys GH HO V HM Hn. exact (grid_cells vg vh data gh points zero_bins mask node_map Wd Wg Keys GH HO t M HM Hn V).
Qed.
Print Assumptions C74_exact.

(** Two rows, one column with one split point. Row 1 stores bin 1; row 2 lacks the column, whose zero bin is 0. *)
Definition fex_rows : dtable nat (dict nat nat * (Z * nat)) := DT [(1, ([(0, 1)], (1%Z, 0))); (2, ([], (1%Z, 0)))].
Definition fex_points : list (list Qc) := [[zq 0]].
Definition fex_zero : dict nat nat := [(0, 0)].
Definition fex_map : dict nat nat := [(0, 0)].
Lemma fex_ok : hist_ok (dt_data fex_rows) fex_points fex_zero [true] fex_map.
Proof.
  constructor; [cbn; lia| | | | |].
  - intros nd i. cbn. destruct (decide (nd = 0)); intros [= <-]. lia.
  - reflexivity.
  - intros [|fid] p; cbn; [|discriminate]. intros [= <-]. exists 0. split; [reflexivity|]. cbn. lia.
  - intros k r H. cbn in H. rewrite !elem_of_cons, elem_of_nil in H. destruct H as [[= -> ->]|[[= -> ->]|[]]]; apply (bool_decide_unpack _); vm_compute; reflexivity.
  - intros k r fid b H E. cbn in H. rewrite !elem_of_cons, elem_of_nil in H. destruct H as [[= -> ->]|[[= -> ->]|[]]]; cbn in E; [|discriminate].
    destruct (decide (fid = 0)) as [->|]; [|discriminate]. injection E as <-. exists [zq 0]. split; [reflexivity|cbn; lia].
Qed.
Definition fex_g (k : nat) : Qc := if decide (k = 1) then zq 1 else p2 (-60).
Definition fex_h (k : nat) : Qc := Q2Qc (1 # 2).
Definition fex_gh : dtable nat (Qc * Qc) := DT [(1, (fex_g 1, fex_h 1)); (2, (fex_g 2, fex_h 2))].
Lemma fex_keys k : k ∈ dt_keys fex_rows -> k ∈ dt_keys fex_gh.
Proof. auto. Qed.
Lemma fex_vals k c : (k, c) ∈ dt_data fex_gh -> c = (fex_g k, fex_h k).
Proof. cbn. rewrite !elem_of_cons, elem_of_nil. intros [[= -> ->]|[[= -> ->]|[]]]; reflexivity. Qed.
Lemma fex_unit : unit_doubles fex_g fex_h (dt_keys fex_gh).
Proof.
  intros k H. cbn in H. rewrite !elem_of_cons, elem_of_nil in H. split; [|split; [exists 1%Z, (-1)%Z; split; [lia|apply Qc_is_canon; reflexivity]|split; [|split; apply qleb_true; reflexivity]]].
  - destruct H as [->|[->|[]]]; [exists 1%Z, 0%Z|exists 1%Z, (-60)%Z]; (split; [lia|apply Qc_is_canon; vm_compute; reflexivity]).
  - destruct H as [->|[->|[]]]; apply qleb_true; vm_compute; reflexivity.
Qed.
Example C74_ex : dt_wf fex_rows /\ dt_wf fex_gh /\ (3 * Z.of_nat (length (dt_data fex_rows)) <= 2 ^ 51)%Z.
Proof. split; [apply (bool_decide_unpack _); vm_compute; reflexivity|]. split; [apply (bool_decide_unpack _); vm_compute; reflexivity|cbn; lia]. Qed.

(** The sums are not exact: bin 0 of the example holds one row with a positive gradient, but its sum is total minus stored,
    (1 + 2^-60) - 1 = 0 in doubles. *)
Theorem C74_zero_bin_refuted : exists (vg vh : nat -> Qc) data (gh : dtable nat (Qc * Qc)) points zero_bins mask node_map h t,
  dt_wf data /\ dt_wf gh /\ (forall k, k ∈ dt_keys data -> k ∈ dt_keys gh) /\ (forall k c, (k, c) ∈ dt_data gh -> c = (vg k, vh k)) /\
  hist_ok (dt_data data) points zero_bins mask node_map /\ unit_doubles vg vh (dt_keys gh) /\
  get_histograms fops data gh points zero_bins (Some mask) node_map = Ok h /\ hget h 0 0 0 = Some t /\ tc t = 1%Z /\
  (0 < left_sum (dt_data data) zero_bins node_map 0 vg 0 0)%Qc /\ tg t = 0%Qc.
Proof.
  exists fex_g, fex_h, fex_rows, fex_gh, fex_points, fex_zero, [true], fex_map.
  destruct (C74_near fex_g fex_h fex_rows fex_gh fex_points fex_zero [true] fex_map (proj1 C74_ex) (proj1 (proj2 C74_ex)) fex_keys fex_vals fex_ok fex_unit (proj2 (proj2 C74_ex))) as (h & E & D).
  destruct (D 0 0 [zq 0] 0) as (t & Ht & _ & _ & C); [cbn; lia|reflexivity|reflexivity|cbn; lia|].
  exists h, t. split; [exact (proj1 C74_ex)|]. split; [exact (proj1 (proj2 C74_ex))|]. split; [exact fex_keys|]. split; [exact fex_vals|]. split; [exact fex_ok|]. split; [exact fex_unit|].
  split; [exact E|]. split; [exact Ht|]. split; [rewrite C; reflexivity|]. split; [apply qltb_true; vm_compute; reflexivity|].
  assert (X : match get_histograms fops fex_rows fex_gh fex_points fex_zero (Some [true]) fex_map with Ok h => match hget h 0 0 0 with Some t => this (tg t) = this 0%Qc | None => False end | Err _ => False end) by (vm_compute; reflexivity).
  rewrite E, Ht in X. apply Qc_is_canon. rewrite X. reflexivity.
Qed.
Print Assumptions C74_zero_bin_refuted.

(** C75. The guest's search in doubles, on its histogram in doubles. With n rows, lambda >= 2^-44 n^2 and
    D = 2^-38 n^4 (1/lambda + 1/lambda^2): a returned split is allowed, its reported gain is within D of its true gain, and no
    allowed split of the node truly gains more than 2 D above it; if none is returned, no allowed split truly gains more than
    min_impurity + D. The search never raises. *)
Theorem C75_near_best {K} `{EqDecision K} (vg vh : K -> Qc) data (gh : dtable K (Qc * Qc)) points zero_bins mask node_map P h nid fh :
  let n := Z.of_nat (length (dt_data data)) in let i := (/ reg_lambda P)%Qc in
  let D := (p2 (-38) * (zq n * zq n * (zq n * zq n)) * (i + i * i))%Qc in
  let ok := allowed (dt_data data) points zero_bins mask node_map P nid in
  let gain := true_gain vg vh (dt_data data) zero_bins node_map P nid in
  dt_wf data -> dt_wf gh -> (forall k, k ∈ dt_keys data -> k ∈ dt_keys gh) ->
  (forall k c, (k, c) ∈ dt_data gh -> c = (vg k, vh k)) -> hist_ok (dt_data data) points zero_bins mask node_map ->
  unit_doubles vg vh (dt_keys gh) -> is_double (min_impurity P) -> (1 <= n <= 2 ^ 47)%Z -> (p2 (-44) * (zq n * zq n) <= reg_lambda P)%Qc ->
  get_histograms fops data gh points zero_bins (Some mask) node_map = Ok h -> nid < length node_map -> h !! nid = Some fh ->
  exists s, f_find_split_guest P mask fh = Ok s /\
    match si_fid s, si_bid s, si_gain s with
    | Some f, Some b, Some x => ok f b /\ (qabs (x - gain f b) <= D)%Qc /\ (min_impurity P < x)%Qc /\ forall f' b', ok f' b' -> (gain f' b' <= gain f b + zq 2 * D)%Qc
    | None, None, Some x => (x <= min_impurity P)%Qc /\ forall f' b', ok f' b' -> (gain f' b' <= min_impurity P + D)%Qc
    | _, _, _ => False
    end.
Proof.
  intros n i D ok gain Wd Wg Keys GH HO V MD Hn Hl E Hnid Hfh.
  apply (near_best vg vh data gh points zero_bins mask node_map Wd Wg Keys GH HO V) with (h := h); try assumption.
  - fold n. assert (3 * n <= 3 * 2 ^ 47)%Z by lia. lia.
  - now apply fround_double.
  - eapply Qclt_le_trans; [|exact Hl]. assert (X : (1 <= zq n)%Qc) by (apply (zq_le 1); lia). pose proof (p2_pos (-44)) as Y. clear - X Y. change (zq 0) with 0%Qc in Y. assert (1 <= zq n * zq n)%Qc by qnra. generalize dependent (zq n * zq n)%Qc. intros. qnra.
Qed.
Print Assumptions C75_near_best.

(** Three rows, two columns: gradients 1, 2^-60 and -1. Column 0 splits off row 1, column 1 rows 1 and 2. *)
Definition gex_rows : dtable nat (dict nat nat * (Z * nat)) :=
  DT [(1, ([(0, 0); (1, 0)], (1%Z, 0))); (2, ([(0, 1); (1, 0)], (1%Z, 0))); (3, ([(0, 1); (1, 1)], (1%Z, 0)))].
Definition gex_points : list (list Qc) := [[zq 0]; [zq 0]].
Definition gex_zero : dict nat nat := [(0, 0); (1, 0)].
Definition gex_g (k : nat) : Qc := if decide (k = 1) then zq 1 else if decide (k = 2) then p2 (-60) else zq (-1).
Definition gex_h (k : nat) : Qc := if decide (k = 2) then zq 0 else Q2Qc (1 # 2).
Definition gex_gh : dtable nat (Qc * Qc) := DT [(1, (gex_g 1, gex_h 1)); (2, (gex_g 2, gex_h 2)); (3, (gex_g 3, gex_h 3))].
Definition gex_P : sparams := SParams (zq 1) (zq 0) 2 1.
Lemma gex_ok : hist_ok (dt_data gex_rows) gex_points gex_zero [true; true] fex_map.
Proof.
  constructor; [cbn; lia| | | | |].
  - intros nd i. cbn. destruct (decide (nd = 0)); intros [= <-]. lia.
  - reflexivity.
  - intros [|[|fid]] p; cbn; [| |discriminate]; intros [= <-]; exists 0; (split; [reflexivity|]; cbn; lia).
  - intros k r H. cbn in H. rewrite !elem_of_cons, elem_of_nil in H. destruct H as [[= -> ->]|[[= -> ->]|[[= -> ->]|[]]]]; apply (bool_decide_unpack _); vm_compute; reflexivity.
  - intros k r fid b H E. cbn in H. rewrite !elem_of_cons, elem_of_nil in H. destruct H as [[= -> ->]|[[= -> ->]|[[= -> ->]|[]]]]; cbn in E;
      (destruct (decide (fid = 0)) as [->|]; [|destruct (decide (fid = 1)) as [->|]; [|discriminate]]); injection E as <-; exists [zq 0]; (split; [reflexivity|cbn; lia]).
Qed.
Lemma gex_unit : unit_doubles gex_g gex_h (dt_keys gex_gh).
Proof.
  intros k H. cbn in H. rewrite !elem_of_cons, elem_of_nil in H.
  destruct H as [->|[->|[->|[]]]].
  - split; [exists 1%Z, 0%Z|split; [exists 1%Z, (-1)%Z|]]; [split; [lia|apply Qc_is_canon; vm_compute; reflexivity]..|]. repeat split; apply qleb_true; vm_compute; reflexivity.
  - split; [exists 1%Z, (-60)%Z|split; [exists 0%Z, 0%Z|]]; [split; [lia|apply Qc_is_canon; vm_compute; reflexivity]..|]. repeat split; apply qleb_true; vm_compute; reflexivity.
  - split; [exists (-1)%Z, 0%Z|split; [exists 1%Z, (-1)%Z|]]; [split; [lia|apply Qc_is_canon; vm_compute; reflexivity]..|]. repeat split; apply qleb_true; vm_compute; reflexivity.
Qed.
Lemma gex_vals k c : (k, c) ∈ dt_data gex_gh -> c = (gex_g k, gex_h k).
Proof. cbn. rewrite !elem_of_cons, elem_of_nil. intros [[= -> ->]|[[= -> ->]|[[= -> ->]|[]]]]; reflexivity. Qed.
Lemma gex_hyps : dt_wf gex_rows /\ dt_wf gex_gh /\ (forall k, k ∈ dt_keys gex_rows -> k ∈ dt_keys gex_gh) /\ is_double (min_impurity gex_P) /\
  (1 <= Z.of_nat (length (dt_data gex_rows)) <= 2 ^ 47)%Z /\ (p2 (-44) * (zq 3 * zq 3) <= reg_lambda gex_P)%Qc.
Proof.
  split; [apply (bool_decide_unpack _); vm_compute; reflexivity|]. split; [apply (bool_decide_unpack _); vm_compute; reflexivity|]. split; [auto|].
  split; [exists 0%Z, 0%Z; split; [lia|apply Qc_is_canon; vm_compute; reflexivity]|]. split; [cbn; lia|]. apply qleb_true. vm_compute. reflexivity.
Qed.

(** The split found need not be the best one: in doubles both columns gain the same, so column 0 is returned, but column 1
    truly gains more. *)
Theorem C75_best_refuted : exists (vg vh : nat -> Qc) data (gh : dtable nat (Qc * Qc)) points zero_bins mask node_map P h fh s,
  dt_wf data /\ dt_wf gh /\ (forall k, k ∈ dt_keys data -> k ∈ dt_keys gh) /\ (forall k c, (k, c) ∈ dt_data gh -> c = (vg k, vh k)) /\
  hist_ok (dt_data data) points zero_bins mask node_map /\ unit_doubles vg vh (dt_keys gh) /\
  get_histograms fops data gh points zero_bins (Some mask) node_map = Ok h /\ h !! 0 = Some fh /\ f_find_split_guest P mask fh = Ok s /\
  si_fid s = Some 0 /\ si_bid s = Some 0 /\ allowed (dt_data data) points zero_bins mask node_map P 0 1 0 /\
  (true_gain vg vh (dt_data data) zero_bins node_map P 0 0 0 < true_gain vg vh (dt_data data) zero_bins node_map P 0 1 0)%Qc.
Proof.
  exists gex_g, gex_h, gex_rows, gex_gh, gex_points, gex_zero, [true; true], fex_map, gex_P.
  destruct gex_hyps as (W1 & W2 & KS & MD & Hn & Hl).
  destruct (C74_near gex_g gex_h gex_rows gex_gh gex_points gex_zero [true; true] fex_map W1 W2 KS gex_vals gex_ok gex_unit) as (h & E & D); [cbn; lia|].
  destruct (D 0 0 [zq 0] 0) as (t & Ht & _); [cbn; lia|reflexivity|reflexivity|cbn; lia|]. unfold hget in Ht. destruct (h !! 0) as [fh|] eqn:Hfh; [|discriminate]. clear D t Ht.
  destruct (C75_near_best gex_g gex_h gex_rows gex_gh gex_points gex_zero [true; true] fex_map gex_P h 0 fh W1 W2 KS gex_vals gex_ok gex_unit MD Hn Hl E) as (s & Es & _); [cbn; lia|exact Hfh|].
  exists h, fh, s. repeat (split; [assumption|]). split; [exact gex_vals|]. split; [exact gex_ok|]. split; [exact gex_unit|]. repeat (split; [assumption|]).
  assert (X : match get_histograms fops gex_rows gex_gh gex_points gex_zero (Some [true; true]) fex_map with Ok h => match h !! 0 with Some fh => match f_find_split_guest gex_P [true; true] fh with Ok s => si_fid s = Some 0 /\ si_bid s = Some 0 | Err _ => False end | None => False end | Err _ => False end) by (vm_compute; split; reflexivity).
  rewrite E, Hfh, Es in X. destruct X as [X1 X2]. split; [exact X1|]. split; [exact X2|]. split.
  - split; [reflexivity|]. split; [exists [zq 0]; split; [reflexivity|cbn; lia]|]. vm_compute. repeat split; discriminate.
  - apply qltb_true. vm_compute. reflexivity.
Qed.
Print Assumptions C75_best_refuted.
