(** C76: a tree grown in double arithmetic. *)
From Verif Require Import P_Tree P_Predict P_Boost P_Local P_FloatSplit FloatTreeSame.
Local Open Scope nat_scope.

Section Grown.
  Context {K : Type} `{EqDecision K} (U : list K) (cfg : pcfg K) (me : party K) (gh : dtable K (Qc * Qc)) (vg vh : K -> Qc) (d : nat).
  Local Notation lam := (reg_lambda (c_par cfg)).
  Local Notation mi := (min_impurity (c_par cfg)).
  Let n : Z := Z.of_nat (length U).
  Let m : Z := (n * (Z.of_nat d + 1))%Z.
  Let i : Qc := (/ lam)%Qc.
  (** The least gain as the program computes it, and the errors allowed for sums, weights and gains. *)
  Let least : Qc := fround (mi + fround FLOAT_ZERO)%Qc.
  Let E : Qc := (p2 (-52) * (zq (3 * m) * zq (3 * m)))%Qc.
  Let W : Qc := (p2 (-45) * (zq m * zq m * zq m) * (i + i * i))%Qc.
  Let D : Qc := (p2 (-38) * (zq n * zq n * (zq n * zq n)) * (i + i * i))%Qc.

  (** With n rows, d + 1 levels and m = n (d + 1): m is at most 2^47 and lambda at least 2^-44 m^2. *)
  Record double_ok : Prop := {
    do_party : alone_ok U cfg me gh vg vh;
    do_unit : unit_doubles vg vh U;
    do_mi : is_double mi;
    do_depth : c_depth cfg = d + 1;
    do_size : (m <= 2 ^ 47)%Z;
    do_lam : (p2 (-44) * (zq m * zq m) <= lam)%Qc }.

  (** Row [k] is a row of the leaf [nd]. *)
  Definition at_leaf (T : list node) (rows : list (K -> bool)) (k : K) (nd : node) : Prop :=
    exists id S, T !! id = Some nd /\ n_leaf nd = true /\ rows !! id = Some S /\ S k = true.

  (** C76. Growing never raises. Every node stands for rows, all of them at the root and shared out by the bins of the split at an
      inner node; its stored sums are within E of the sums over these rows and its weight within W of the optimal one; every
      split is allowed, gains more than the least gain less D and at most 2 D less than the best; a leaf above the bottom level
      has no allowed split that gains more than the least gain plus 3 D; every row gets the weight of the leaf that has it. *)
  Theorem C76_near_tree : double_ok -> exists st rows levels w, f_local_fit cfg gh = Ok st /\
    near_tree U me vg vh lam least E W D d (c_points cfg) (t_nodes st) (t_mask st) rows levels /\
    t_weights st = Some w /\ NoDup (dt_keys w) /\ (forall k, k ∈ dt_keys w <-> k ∈ U) /\
    forall k v, (k, v) ∈ dt_data w <-> k ∈ U /\ exists nd, at_leaf (t_nodes st) rows k nd /\ v = n_weight nd.
  Proof.
    intros [AL UN MD DE SZ LM]. destruct AL as [[ND NE] PK LF ST _ (Wg & Kg & Vg)].
    assert (n1 : (1 <= n)%Z) by (unfold n; destruct U; [contradiction|cbn [length]; lia]). assert (m0 : (1 <= m)%Z) by (unfold m; nia).
    assert (L0 : (0 < lam)%Qc).
    { eapply Qclt_le_trans; [|exact LM]. assert (X : (1 <= zq m)%Qc) by (apply (zq_le 1); lia). pose proof (p2_pos (-44)) as Y. clear - X Y. change (zq 0) with 0%Qc in Y. assert (1 <= zq m * zq m)%Qc by qnra. generalize dependent (zq m * zq m)%Qc. intros. qnra. }
    exact (f_fit U ND cfg me PK vg vh gh UN Wg Kg Vg LF ST d (fround_double _ MD) n1 SZ L0 LM DE).
  Qed.

  (** If every choice of the exact tree is clear, the stored tree has the same splits, and every row gets its exact weight up to W. *)
  Theorem C76_same_tree t : double_ok -> learn U lam mi me [] vg vh vg vh (fun x => x) Ok d = Ok t -> clear U me vg vh lam least D d (fun _ => true) t ->
    exists st w, f_local_fit cfg gh = Ok st /\ same_tree E W (c_points cfg) (t_nodes st) (t_mask st) 0 t /\
      t_weights st = Some w /\ (forall k, k ∈ dt_keys w <-> k ∈ U) /\ forall k v, (k, v) ∈ dt_data w -> (qabs (v - route me [] t k) <= W)%Qc.
  Proof.
    intros DO EL CL. destruct (C76_near_tree DO) as (st & rows & levels & w & EF & NT & EW & NW & KW & VW). exists st, w. split; [exact EF|].
    destruct (nt_root _ _ _ _ _ _ _ _ _ _ _ _ _ _ _ NT) as (S & R1 & R2 & R3).
    destruct (same_grow U me vg vh lam mi least E W D d (c_points cfg) (t_nodes st) (t_mask st) rows levels NT d (fun _ => true) S t 0) as [A B]; [exact EL|exact CL|exact R1|intros k Hk; symmetry; auto|now rewrite Nat.sub_diag|lia|].
    split; [exact A|]. split; [exact EW|]. split; [exact KW|]. intros k v Hv. pose proof (proj1 (VW k v) Hv) as [Hk _]. destruct (B k Hk eq_refl) as (nd & Hnd & BW).
    assert (Hv' : (k, n_weight nd) ∈ dt_data w) by (apply VW; split; [exact Hk|]; exists nd; auto).
    assert (v = n_weight nd) as ->; [|exact BW]. apply tget_elem in Hv; [|exact NW]. apply tget_elem in Hv'; [|exact NW]. congruence.
  Qed.
End Grown.
Print Assumptions C76_near_tree.
Print Assumptions C76_same_tree.

(** ** Four rows, two columns, three levels *)
Definition tex_cfg : pcfg nat := jx_cfg 3 1 [0; 1; 0; 1] ex_hbins.
Definition tex_me : party nat := jx_joint [0; 1; 0; 1] ex_hbins.
Example C76_ex : double_ok (seq 0 4) tex_cfg tex_me ex_gh ex_vg ex_vh 2.
Proof.
  split.
  - apply jx_alone; try reflexivity; [repeat constructor..|discriminate|exact (pa_gh _ _ _ _ _ _ _ _ _ _ ex_ok)].
  - intros k Hk. cbn in Hk. repeat rewrite elem_of_cons in Hk. destruct Hk as [->|[->|[->|[->|Hk]]]]; [..|now apply elem_of_nil in Hk].
    + split; [exists 1%Z, 0%Z|split; [exists 1%Z, 0%Z|]]; [split; [lia|apply Qc_is_canon; vm_compute; reflexivity]..|]. repeat split; apply qleb_true; vm_compute; reflexivity.
    + split; [exists 1%Z, (-1)%Z|split; [exists 1%Z, 0%Z|]]; [split; [lia|apply Qc_is_canon; vm_compute; reflexivity]..|]. repeat split; apply qleb_true; vm_compute; reflexivity.
    + split; [exists (-1)%Z, 0%Z|split; [exists 1%Z, 0%Z|]]; [split; [lia|apply Qc_is_canon; vm_compute; reflexivity]..|]. repeat split; apply qleb_true; vm_compute; reflexivity.
    + split; [exists (-1)%Z, (-1)%Z|split; [exists 1%Z, 0%Z|]]; [split; [lia|apply Qc_is_canon; vm_compute; reflexivity]..|]. repeat split; apply qleb_true; vm_compute; reflexivity.
  - exists 0%Z, 0%Z. split; [lia|apply Qc_is_canon; vm_compute; reflexivity].
  - reflexivity.
  - cbn. lia.
  - apply qleb_true. vm_compute. reflexivity.
Qed.
Definition tex_tree : dtree := ok_tree (learn (seq 0 4) (reg_lambda ex_par) (zq 0) tex_me [] ex_vg ex_vh ex_vg ex_vh (fun x => x) Ok 2).
Lemma tex_learn : learn (seq 0 4) (reg_lambda ex_par) (zq 0) tex_me [] ex_vg ex_vh ex_vg ex_vh (fun x => x) Ok 2 = Ok tex_tree.
Proof. unfold tex_tree. destruct (learn _ _ _ _ _ _ _ _ _ _ _ _) as [t|e] eqn:E; [reflexivity|exfalso]. assert (X : match learn (seq 0 4) (reg_lambda ex_par) (zq 0) tex_me [] ex_vg ex_vh ex_vg ex_vh (fun x => x) Ok 2 with Ok _ => True | Err _ => False end) by (vm_compute; exact I). now rewrite E in X. Qed.
(** Its choices are clear: column 1 at the root, column 0 below. *)
Definition clearb (lam least D : Qc) (U : list nat) (me : party nat) (vg vh : nat -> Qc) : nat -> (nat -> bool) -> dtree -> bool :=
  fix go r S t :=
    let gain := rows_gain U me vg vh lam S in
    match t with
    | TLeaf _ _ _ => (r =? 0) || forallb (fun c => qleb (gain c) (least - D)%Qc) (cands U me S)
    | TSplit _ _ _ c _ tl tr =>
        let fb := (ch_fid c, ch_bin c) in
        qltb (least + zq 3 * D)%Qc (gain fb) && forallb (fun c' => bool_decide (c' = fb) || qltb (gain c' + zq 2 * D)%Qc (gain fb)) (cands U me S) &&
        go (r - 1) (left_of me S (ch_fid c) (ch_bin c)) tl && go (r - 1) (right_of me S (ch_fid c) (ch_bin c)) tr
    end.
Lemma clearb_ok lam least D U me vg vh t : forall r S, clearb lam least D U me vg vh r S t = true -> clear U me vg vh lam least D r S t.
Proof.
  induction t as [w G H|w G H c g tl IHl tr IHr]; intros r S; cbn [clearb clear].
  - intros [X|X]%orb_true_iff; [left; now apply Nat.eqb_eq|right]. intros c Hc. rewrite forallb_forall in X. apply qleb_true. apply X. now apply elem_of_list_In.
  - intros [[[X1 X2]%andb_true_iff X3]%andb_true_iff X4]%andb_true_iff. split; [now apply qltb_true|]. split; [|auto]. intros c' Hc N. rewrite forallb_forall in X2. specialize (X2 c' ltac:(now apply elem_of_list_In)).
    apply orb_true_iff in X2 as [X2|X2]; [apply bool_decide_eq_true in X2; contradiction|now apply qltb_true].
Qed.
Example C76_clear_ex : let lam := reg_lambda ex_par in let i := (/ lam)%Qc in
  clear (seq 0 4) tex_me ex_vg ex_vh lam (fround (zq 0 + fround FLOAT_ZERO)%Qc) (p2 (-38) * (zq 4 * zq 4 * (zq 4 * zq 4)) * (i + i * i))%Qc 2 (fun _ => true) tex_tree /\
  exists w G H c g tl tr, tex_tree = TSplit w G H c g tl tr /\ ch_fid c = 1.
Proof.
  cbv zeta. split; [apply clearb_ok; vm_compute; reflexivity|].
  assert (X : match tex_tree with TSplit _ _ _ c _ _ _ => ch_fid c = 1 | TLeaf _ _ _ => False end) by (vm_compute; reflexivity). destruct tex_tree as [|w G H c g tl tr]; [contradiction|]. eauto 10.
Qed.
(** The program on this data: the weights -10/11, -5/11, 10/11, 5/11 rounded to doubles. *)
Example C76_run : match f_local_fit tex_cfg ex_gh with
  | Ok st => map (fun nd => (n_fid nd, n_leaf nd, n_left nd)) (t_nodes st) = [(Some 1, false, Some 1); (Some 0, false, Some 3); (Some 0, false, Some 5); (None, true, None); (None, true, None); (None, true, None); (None, true, None)] /\
      option_map (fun w => map (fun kv => (kv.1, this kv.2)) (dt_data w)) (t_weights st) =
        Some [(0, this (fround (- zq 1 / fround (Q2Qc (11 # 10)))%Qc)); (1, this (fround (Q2Qc (-1 # 2) / fround (Q2Qc (11 # 10)))%Qc)); (2, this (fround (zq 1 / fround (Q2Qc (11 # 10)))%Qc)); (3, this (fround (Q2Qc (1 # 2) / fround (Q2Qc (11 # 10)))%Qc))]
  | Err _ => False
  end.
Proof. vm_compute. split; reflexivity. Qed.

(** ** A near tie
    The three rows of C75_best_refuted: in doubles the root is split at column 0 although column 1 gains more, so row 2 gets a
    weight of the other sign. *)
Definition uex_cfg : pcfg nat := PCfg gex_P 2 1 gex_points gex_zero [true; true] (DT [(1, [(0, 0); (1, 0)]); (2, [(0, 1); (1, 0)]); (3, [(0, 1); (1, 1)])]).
Definition uex_me : party nat := Party (fun k f => if f =? 0 then (if k =? 1 then 0 else 1) else (if k =? 3 then 1 else 0)) [1; 1] [true; true] 2 1.
Lemma uex_ok : double_ok [1; 2; 3] uex_cfg uex_me gex_gh gex_g gex_h 1.
Proof.
  split.
  - split.
    + split; [apply (bool_decide_unpack _); vm_compute; reflexivity|discriminate].
    + assert (EL : forall k r, (k, r) ∈ dt_data (c_data uex_cfg) -> (k = 1 /\ r = [(0, 0); (1, 0)]) \/ (k = 2 /\ r = [(0, 1); (1, 0)]) \/ (k = 3 /\ r = [(0, 1); (1, 1)])).
      { intros k r Hr. cbn in Hr. rewrite !elem_of_cons, elem_of_nil in Hr. destruct Hr as [[= -> ->]|[[= -> ->]|[[= -> ->]|[]]]]; auto. }
      split; [apply (bool_decide_unpack _); vm_compute; reflexivity|intros k; reflexivity| | | | |reflexivity..].
      * intros k r Hr. destruct (EL k r Hr) as [[-> ->]|[[-> ->]|[-> ->]]]; apply (bool_decide_unpack _); vm_compute; reflexivity.
      * intros k r f Hr Hf. cbn in Hf. destruct f as [|[|f]]; [| |lia]; destruct (EL k r Hr) as [[-> ->]|[[-> ->]|[-> ->]]]; reflexivity.
      * intros k r f b Hr Hb. destruct (EL k r Hr) as [[-> ->]|[[-> ->]|[-> ->]]]; cbn in Hb; (destruct (decide (f = 0)) as [->|]; [|destruct (decide (f = 1)) as [->|]; [|discriminate]]); injection Hb as <-; exists [zq 0]; (split; [reflexivity|cbn; lia]).
      * intros [|[|f]] pts Hp; cbn in Hp; [injection Hp as <-..|discriminate]; exists 0; (split; [reflexivity|cbn; lia]).
    + cbn. lia.
    + discriminate.
    + cbn. lia.
    + split; [apply gex_hyps|]. split; [intros k; reflexivity|exact gex_vals].
  - exact gex_unit.
  - apply gex_hyps.
  - reflexivity.
  - cbn. lia.
  - apply qleb_true. vm_compute. reflexivity.
Qed.
Theorem C76_near_tie_refuted : exists (U : list nat) cfg me gh vg vh d st w t v, double_ok U cfg me gh vg vh d /\ f_local_fit cfg gh = Ok st /\ t_weights st = Some w /\
  learn U (reg_lambda (c_par cfg)) (min_impurity (c_par cfg)) me [] vg vh vg vh (fun x => x) Ok d = Ok t /\ (2%nat, v) ∈ dt_data w /\ (v > Q2Qc (1 # 2))%Qc /\ (route me [] t 2%nat < Q2Qc (-1 # 2))%Qc.
Proof.
  exists [1; 2; 3], uex_cfg, uex_me, gex_gh, gex_g, gex_h, 1.
  assert (X : match f_local_fit uex_cfg gex_gh with
    | Ok st => match t_weights st with Some w => match tget w 2 with Some v => qltb (Q2Qc (1 # 2)) v = true | None => False end | None => False end
    | Err _ => False end) by (vm_compute; reflexivity).
  assert (Y : match learn [1; 2; 3] (reg_lambda (c_par uex_cfg)) (min_impurity (c_par uex_cfg)) uex_me [] gex_g gex_h gex_g gex_h (fun x => x) Ok 1 with
    | Ok t => qltb (route uex_me [] t 2%nat) (Q2Qc (-1 # 2)) = true | Err _ => False end) by (vm_compute; reflexivity).
  destruct (C76_near_tree _ _ _ _ _ _ _ uex_ok) as (st & rows & levels & w & EF & _ & EW & NW & _). rewrite EF, EW in X. destruct (tget w 2) as [v|] eqn:Ev; [|destruct X].
  destruct (learn _ _ _ _ _ _ _ _ _ _ _ _) as [t|e] eqn:EL; [|destruct Y]. exists st, w, t, v. split; [exact uex_ok|]. split; [exact EF|]. split; [exact EW|]. split; [first [exact EL|reflexivity]|].
  split; [apply tget_elem; [exact NW|exact Ev]|]. split; [now apply qltb_true|now apply qltb_true].
Qed.
Print Assumptions C76_near_tie_refuted.
