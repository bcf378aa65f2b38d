(** C71: the program without a federation and the federated programs on the same two files. *)
From Verif Require Import XgbJoin P_Xgb P_Script P_Pipe P_Tree P_Binning P_Boost P_Input P_Local TreeRun FloatProofs.
From Verif Require Import PipeSpec InputSpec.
Local Open Scope nat_scope.

Section Join.
  Context {G C : Type} (seeded : Z -> G) (below : G -> nat -> nat * G) (py_float : text -> option Qc).
  Context (rnd : Qc -> Qc) (pred : loss_kind -> list Qc -> list Qc) (lossf : loss_kind -> dtable nat nat -> dtable nat (list Qc) -> Qc).
  Context (n m : nat) (it it' : imp_type) (P : bparams) (bp : bin_params) (par : sparams) (depth stp d : nat).
  Context (draw : nat -> nat -> nat -> list nat) (enc : nat -> dtable nat (Qc * Qc) -> res (dtable nat (C * C))) (threshold ratio : Qc).
  Context (gfile : text) (gh : list text) (grecs : list (record Qc)) (hfile : text) (hh : list text) (hrecs : list (record Qc)).
  Context (sname : nat -> site) (fuel : nat) (gdraw : nat -> nat -> nat -> list nat) (hdraw : nat -> nat -> nat -> nat -> list nat).
  Local Notation alone gen := (xgb_script rnd pred lossf P bp par depth stp seeded below py_float it' draw enc threshold gfile hfile ratio gen).
  Local Notation both gen hgen := (scripts seeded below py_float rnd pred lossf 1 sname it P bp par depth stp fuel gdraw hdraw threshold ratio gfile (fun _ => hfile) (C := Qc) (E := Qc) (fun _ => Ok) Ok Ok (fun _ _ _ x => Ok x) qops gen hgen).
  (** The loss does not depend on the order of the rows. *)
  Definition order_free : Prop := forall kind (y y' : dtable nat nat) (a b : dtable nat (list Qc)), NoDup (dt_keys y) -> NoDup (dt_keys y') -> NoDup (dt_keys a) -> NoDup (dt_keys b) ->
    (forall k v, (k, v) ∈ dt_data y <-> (k, v) ∈ dt_data y') -> (forall k v, (k, v) ∈ dt_data a <-> (k, v) ∈ dt_data b) -> lossf kind y a = lossf kind y' b.
  Local Notation dim ls := (if decide (2 < length ls) then length ls else 1).
  Local Notation kind ls := (if decide (length ls = 2) then Sigmoid else Softmax).

  Section Proof.
    Context (BO : both_ok py_float bp n n m ratio gfile gh grecs hfile hh hrecs) (SO : settings_ok rnd pred 1 sname P par depth stp d gdraw hdraw) (AS : alone_settings rnd pred P par depth stp d draw enc).
    Context (R1 : b_rate P = 1%Qc) (LX : b_early P = true -> order_free).
    Context (tr te : list nat) (PM : Permutation (tr ++ te) (seq 0 n)) (LT : length tr = m).
    Local Notation gs := (train_source gh (part grecs tr) (part grecs te)).
    Local Notation hs := (train_source hh (part hrecs tr) (part hrecs te)).
    Local Notation src := (train_source (gh ++ hh) (part (glue grecs hrecs) tr) (part (glue grecs hrecs) te)).
    Local Notation labels := (place_labels grecs tr).
    Local Notation ls := (classes_in labels).
    Local Notation pts := (pts_of bp par depth stp src).
    Local Notation U := (seq 0 m).
    Context (classes classes' : list label) (lab lab' : nat -> nat) (gpts : list (list Qc)) (hpts : nat -> list (list Qc)) (guest host : party nat) (T T' : list dtree).
    Context (rs rs' : heap * (list label * nat * loss_kind) * @bstate nat) (hres : list (heap * (nat * list tree_pb))).
    Local Notation J := (join_parties guest [host]).
    Local Notation me := (with_valid J (repeat true (length pts))).
    Local Notation gv := (fun _ : nat => repeat true (length gh)).
    Local Notation hv := (fun _ _ : nat => repeat true (length hh)).
    Local Notation jv := (fun _ : nat => repeat true (length gh) ++ repeat true (length hh)).
    Local Notation fit nh g hs := (fitted rnd pred lossf nh g hs P bp par d labels ls).
    Context (F : fit 1 gs (fun _ => hs) gdraw hdraw (fun v => v) (fun v => v) (fun x => x) Ok classes lab gpts hpts guest [host] T rs hres).
    Context (F' : fit 0 src (fun _ => src) draw (fun _ => draw) (fun v => v) (fun v => v) (fun x => x) Ok classes' lab' pts (fun _ => []) me [] T' rs' []).
    Context (CL : clear_model rnd pred U guest [host] P (kind ls) (dim ls) lab (reg_lambda par) (min_impurity par) d gv hv T).

    Lemma jfiles : files_ok py_float bp 1 n m ratio gfile gh grecs (fun _ => hfile) (fun _ => hh) (fun _ => hrecs).
    Proof. destruct BO. split; auto. Qed.
    Lemma jplaces : Forall (fun p => p < n) tr /\ Forall (fun p => p < n) te.
    Proof. destruct (xpositions _ _ _ _ _ _ _ _ _ _ _ _ BO tr te PM LT) as (A & B & _). auto. Qed.
    Lemma jwide : length grecs = n /\ forall g, g ∈ grecs -> length (r_cells g) = length gh.
    Proof. destruct (bo_guest _ _ _ _ _ _ _ _ _ _ _ _ BO) as [A B _ _ _]. rewrite Forall_forall in B. auto. Qed.
    Lemma same_classes : classes' = classes.
    Proof.
      destruct (ft_classes _ _ _ _ _ _ _ _ _ _ _ _ _ _ _ _ _ _ _ _ _ _ _ _ _ _ _ F) as [D O], (ft_classes _ _ _ _ _ _ _ _ _ _ _ _ _ _ _ _ _ _ _ _ _ _ _ _ _ _ _ F') as [D' O']. eapply classes_unique; eauto.
    Qed.
    Lemma same_lab k : k ∈ U -> lab' k = lab k /\ lab k < length ls.
    Proof.
      intros Hk. apply elem_of_seq in Hk. destruct (lookup_lt_is_Some_2 tr k) as [pos Hp]; [lia|].
      assert (HL : (k, text_label (r_label (rec_at grecs pos))) ∈ dt_data labels) by (apply rtab_elem; eauto).
      pose proof (ft_labels _ _ _ _ _ _ _ _ _ _ _ _ _ _ _ _ _ _ _ _ _ _ _ _ _ _ _ F _ _ HL) as A. pose proof (ft_labels _ _ _ _ _ _ _ _ _ _ _ _ _ _ _ _ _ _ _ _ _ _ _ _ _ _ _ F' _ _ HL) as B.
      rewrite same_classes in B. destruct (ft_classes _ _ _ _ _ _ _ _ _ _ _ _ _ _ _ _ _ _ _ _ _ _ _ _ _ _ _ F) as [D _]. split; [eapply NoDup_lookup; [apply D|exact B|exact A]|].
      rewrite <- (Permutation_length (distinct_perm _ _ _ D (classes_in_ok labels))). eapply lookup_lt_Some; eauto.
    Qed.
    Lemma jsees : sees bp par gs gpts guest /\ sees bp par hs (hpts 0) host /\ exists me0, sees bp par src pts me0.
    Proof.
      split; [apply (ft_guest _ _ _ _ _ _ _ _ _ _ _ _ _ _ _ _ _ _ _ _ _ _ _ _ _ _ _ F)|]. split; [|exists me; apply (ft_guest _ _ _ _ _ _ _ _ _ _ _ _ _ _ _ _ _ _ _ _ _ _ _ _ _ _ _ F')].
      destruct (ft_hosts _ _ _ _ _ _ _ _ _ _ _ _ _ _ _ _ _ _ _ _ _ _ _ _ _ _ _ F) as (_ & LH & H). destruct (lookup_lt_is_Some_2 hres 0) as [r Hr]; [lia|]. now apply (H 0 host r).
    Qed.
    Lemma jkeys h recs : dt_keys (so_rows (train_source h (part recs tr) (part recs te))) = U.
    Proof. rewrite keys_same. now rewrite LT. Qed.
    Lemma dim_pos : 0 < dim ls. Proof. clear. destruct (decide (2 < length ls)) as [L|L]; [eapply Nat.lt_trans; [|exact L]|]; apply Nat.lt_0_succ. Qed.

    Lemma federated_trees : boosted U guest [host] lab (kind ls) (dim ls) rnd (b_lr P) pred
      (fun j vg vh t => learn U (reg_lambda par) (min_impurity par) (with_valid guest (gv j)) (hosts_with [host] (hv j)) vg vh vg vh (fun x => x) Ok d = Ok t) T.
    Proof.
      pose proof (ft_trees _ _ _ _ _ _ _ _ _ _ _ _ _ _ _ _ _ _ _ _ _ _ _ _ _ _ _ F) as B. rewrite jkeys in B. eapply boosted_mono; [|exact B]. cbn beta. intros j vg vh t (gv0 & hv0 & E1 & E2 & EL). specialize (E2 0 ltac:(lia)).
      cbn [so_header train_source] in E1, E2. destruct (sh_cols _ _ _ _ (bo_guest _ _ _ _ _ _ _ _ _ _ _ _ BO)) as [A1 A2], (sh_cols _ _ _ _ (bo_host _ _ _ _ _ _ _ _ _ _ _ _ BO)) as [A3 A4].
      destruct (st_draws _ _ _ _ _ _ _ _ _ _ _ SO) as [D1 D2]. rewrite (sample_all _ _ _ A1 A2 R1 (D1 j)) in E1. rewrite (sample_all _ _ _ A3 A4 R1 (D2 0 j ltac:(lia))) in E2. injection E1 as <-. injection E2 as E2.
      cbn [hosts_with imap] in EL |- *. rewrite <- E2 in EL. exact EL.
    Qed.
    Lemma alone_trees : boosted U J [] lab (kind ls) (dim ls) rnd (b_lr P) pred
      (fun j vg vh t => learn U (reg_lambda par) (min_impurity par) (with_valid J (jv j)) [] vg vh vg vh (fun x => x) Ok d = Ok t) T'.
    Proof.
      pose proof (ft_trees _ _ _ _ _ _ _ _ _ _ _ _ _ _ _ _ _ _ _ _ _ _ _ _ _ _ _ F') as B. rewrite jkeys in B. intros r c t Hc Ht. destruct (B r c t Hc Ht) as (vg & vh & (gv0 & hv0 & E1 & _ & EL) & V). exists vg, vh.
      cbn [so_header train_source] in E1. destruct (bo_names _ _ _ _ _ _ _ _ _ _ _ _ BO) as [_ A2]. destruct (sh_cols _ _ _ _ (bo_guest _ _ _ _ _ _ _ _ _ _ _ _ BO)) as [A1 _].
      rewrite (sample_all (length (gh ++ hh)) _ _ ltac:(rewrite app_length; lia) A2 R1 (as_draws _ _ _ _ _ _ _ _ _ AS _)) in E1. injection E1 as <-. rewrite app_length, repeat_app in EL. split; [exact EL|].
      intros k Hk. destruct (same_lab k Hk) as [<- _]. rewrite (scores_ext rnd (b_lr P) (dim ls) (wt J [] T') (wt me [] T')); [now apply V|]. intros j _. unfold wt. destruct (T' !! j); [|reflexivity].
      symmetry. exact (route_with J [] (repeat true (length pts)) (fun _ => []) _ k).
    Qed.
    Lemma columns t : t ∈ T -> columns_in guest [host] t.
    Proof.
      intros Ht. apply elem_of_list_lookup in Ht as [j Hj]. destruct (split_index (dim ls) dim_pos j) as (r & c & Hc & ->). destruct (federated_trees r c t Hc Hj) as (vg & vh & EL & _).
      exact (columns_with guest [host] _ _ t (grow_columns _ _ _ _ _ _ _ _ _ _ _ _ _ _ _ _ EL)).
    Qed.
    Lemma jagree : (0 < reg_lambda par)%Qc /\ (forall f, length f = dim ls -> length (pred (kind ls) f) = dim ls /\ forall x, x ∈ pred (kind ls) f -> (0 <= x)%Qc /\ (x <= 1)%Qc) /\
      (forall k, k ∈ U -> match kind ls with Sigmoid => dim ls = 1 /\ lab k <= 1 | Softmax => lab k < dim ls end) /\
      Forall (fun p => p_min_sample p = p_min_sample guest /\ p_min_leaf p = p_min_leaf guest) [host] /\
      length (p_nb guest) = length gh /\ length (p_nb host) = length hh.
    Proof.
      destruct (as_params _ _ _ _ _ _ _ _ _ AS) as (_ & _ & _ & L0 & _). destruct jsees as (SG & SH & me0 & S0). destruct (widths gh hh grecs hrecs tr te bp par gpts (hpts 0) guest host SG SH) as (W1 & W2 & _).
      split; [exact L0|]. split; [|split; [|split; [|auto]]].
      - intros f Lf. destruct (as_probs _ _ _ _ _ _ _ _ _ AS (kind ls) f) as [A B]. split; [lia|exact B].
      - intros k Hk. destruct (same_lab k Hk) as [_ L]. destruct (decide (length ls = 2)); destruct (decide (2 < length ls)); try lia.
      - destruct SG as (_ & _ & _ & _ & G5 & G6 & _), SH as (_ & _ & _ & _ & H5 & H6 & _). constructor; [|constructor]. rewrite G5, G6, H5, H6. auto.
    Qed.
    Lemma same_trees j t t' : T !! j = Some t -> T' !! j = Some t' -> t' = moved_tree [guest; host] t.
    Proof.
      destruct jagree as (L0 & HP & HL & LIM & W1 & W2).
      apply (trees_agree rnd pred U guest [host] P (kind ls) (dim ls) lab (reg_lambda par) (min_impurity par) d gv hv jv dim_pos L0 (as_rnd _ _ _ _ _ _ _ _ _ AS) HP HL LIM).
      - intros _. now rewrite repeat_length.
      - intros _ i p Hp. destruct i as [|i]; [|destruct i; discriminate Hp]. injection Hp as <-. now rewrite repeat_length.
      - intros _. cbn [map hosts_with imap with_valid p_valid concat]. now rewrite app_nil_r.
      - exact federated_trees.
      - exact alone_trees.
      - exact CL.
    Qed.
    Lemma same_scores r pos : r * dim ls <= length T -> r * dim ls <= length T' -> score_beside rnd P gh grecs hrecs ls pts T' r pos = score_at rnd P grecs (fun _ => hrecs) ls gpts hpts T r pos.
    Proof.
      intros L1 L2. unfold score_beside, score_at. apply scores_ext. intros j Hj. destruct (lookup_lt_is_Some_2 T j ltac:(lia)) as [t Ht], (lookup_lt_is_Some_2 T' j ltac:(lia)) as [t' Ht']. unfold tree_at. rewrite Ht, Ht', (same_trees j t t' Ht Ht').
      destruct jsees as (SG & SH & me0 & S0). destruct jplaces as [PT _]. destruct jwide as [LG WG]. symmetry. eapply walk_both; eauto. apply columns. eapply elem_of_list_lookup_2; eauto.
    Qed.
    Lemma score_federated r k pos : tr !! k = Some pos -> score_of rnd P ls gpts hpts T r gs (fun _ => hs) k = score_at rnd P grecs (fun _ => hrecs) ls gpts hpts T r pos.
    Proof.
      intros Hk. unfold score_of, score_at, scores. apply map_ext. intros c. unfold BoostSpec.score. f_equal. apply map_ext. intros j. apply pwalk_ext. intros own f. unfold PipeSpec.joined, entries.
      destruct own as [i|]; rewrite train_value, part_value, Hk; reflexivity.
    Qed.
    Lemma score_alone r k pos : tr !! k = Some pos -> score_of rnd P ls pts (fun _ => []) T' r src (fun _ => src) k = score_beside rnd P gh grecs hrecs ls pts T' r pos.
    Proof.
      intros Hk. unfold score_of, score_beside, scores. apply map_ext. intros c. unfold BoostSpec.score. f_equal. apply map_ext. intros j. apply pwalk_ext. intros own f. unfold PipeSpec.joined.
      destruct jplaces as [PT _]. destruct jwide as [LG WG]. destruct own as [i|]; rewrite train_value, part_value, Hk; apply (glue_at n gh grecs hrecs LG WG); rewrite Forall_forall in PT; apply PT; eapply elem_of_list_lookup_2; eauto.
    Qed.
    Lemma same_losses : b_early P = true -> forall q x x', bs_hist rs.2 !! q = Some x -> bs_hist rs'.2 !! q = Some x' -> x = x'.
    Proof.
      intros EB q x x' Hx Hx'. destruct (ft_rounds _ _ _ _ _ _ _ _ _ _ _ _ _ _ _ _ _ _ _ _ _ _ _ _ _ _ _ F) as [N1 _], (ft_rounds _ _ _ _ _ _ _ _ _ _ _ _ _ _ _ _ _ _ _ _ _ _ _ _ _ _ _ F') as [N2 _].
      destruct (ft_losses _ _ _ _ _ _ _ _ _ _ _ _ _ _ _ _ _ _ _ _ _ _ _ _ _ _ _ F q x Hx) as (y & yp & Y1 & Y2 & -> & Y4 & Y5), (ft_losses _ _ _ _ _ _ _ _ _ _ _ _ _ _ _ _ _ _ _ _ _ _ _ _ _ _ _ F' q x' Hx') as (y' & yp' & Y1' & Y2' & -> & Y4' & Y5').
      rewrite !jkeys in *. apply (LX EB); auto.
      - intros k v. rewrite Y2, Y2'. split; intros [Hk ->]; (split; [exact Hk|]); destruct (same_lab k Hk); congruence.
      - intros k v. rewrite Y5, Y5'. assert (X : k ∈ U -> score_of rnd P ls pts (fun _ => []) T' (S q) src (fun _ => src) k = score_of rnd P ls gpts hpts T (S q) gs (fun _ => hs) k).
        { intros Hk. apply elem_of_seq in Hk. destruct (lookup_lt_is_Some_2 tr k) as [pos Hp]; [lia|]. rewrite (score_alone _ _ _ Hp), (score_federated _ _ _ Hp). apply lookup_lt_Some in Hx, Hx'. apply same_scores; [rewrite N1|rewrite N2]; apply Nat.mul_le_mono_r; lia. }
        split; intros [Hk ->]; (split; [exact Hk|]); now rewrite (X Hk).
    Qed.
    Lemma same_model : T' = map (moved_tree [guest; host]) T /\ length (bs_hist rs'.2) = length (bs_hist rs.2).
    Proof.
      destruct jagree as (L0 & HP & HL & LIM & W1 & W2). destruct (ft_rounds _ _ _ _ _ _ _ _ _ _ _ _ _ _ _ _ _ _ _ _ _ _ _ _ _ _ _ F) as [N1 S1], (ft_rounds _ _ _ _ _ _ _ _ _ _ _ _ _ _ _ _ _ _ _ _ _ _ _ _ _ _ _ F') as [N2 S2].
      destruct (models_agree_of rnd pred U guest [host] P (kind ls) (dim ls) lab (reg_lambda par) (min_impurity par) d gv hv jv dim_pos L0 (as_rnd _ _ _ _ _ _ _ _ _ AS) HP HL LIM) with (T := T) (T' := T') (hist := bs_hist rs.2) (hist' := bs_hist rs'.2) as [ET _]; auto.
      - intros _. now rewrite repeat_length.
      - intros _ i p Hp. destruct i as [|i]; [|destruct i; discriminate Hp]. injection Hp as <-. now rewrite repeat_length.
      - intros _. cbn [map hosts_with imap with_valid p_valid concat]. now rewrite app_nil_r.
      - exact federated_trees.
      - exact alone_trees.
      - exact same_losses.
      - split; [exact ET|]. apply (f_equal length) in ET. rewrite map_length, N1, N2 in ET. pose proof dim_pos. nia.
    Qed.
    Lemma same_right right right' : NoDup right -> right_rows rnd pred P threshold gh grecs hrecs te ls classes' pts T' (length (bs_hist rs'.2)) right' ->
      (forall pos, pos ∈ right <-> pos ∈ te /\ exists r x, grecs !! pos = Some r /\
         answer classes threshold (pred (kind ls) (score_at rnd P grecs (fun _ => hrecs) ls gpts hpts T (length (bs_hist rs.2)) pos)) (word (r_label r)) x) -> length right' = length right.
    Proof.
      intros NR [NR' RR'] RR. destruct same_model as [ET EH]. rewrite same_classes, EH in RR'. destruct (ft_rounds _ _ _ _ _ _ _ _ _ _ _ _ _ _ _ _ _ _ _ _ _ _ _ _ _ _ _ F) as [N1 _], (ft_rounds _ _ _ _ _ _ _ _ _ _ _ _ _ _ _ _ _ _ _ _ _ _ _ _ _ _ _ F') as [N2 _].
      apply Permutation_length, NoDup_Permutation; auto. intros pos. rewrite RR, RR'. rewrite same_scores; [reflexivity|lia|rewrite N2, EH; lia].
    Qed.
  End Proof.

  (** If no tree of the federated model has a near tie, the program without a federation prints what the federated guest prints. *)
  Theorem C71_same_accuracy gen gen' hgen : both_ok py_float bp n n m ratio gfile gh grecs hfile hh hrecs -> settings_ok rnd pred 1 sname P par depth stp d gdraw hdraw -> alone_settings rnd pred P par depth stp d draw enc ->
    in_range below -> d < fuel -> it <> IOther -> it' <> IOther -> m < n -> b_rate P = 1%Qc -> (b_early P = true -> order_free) ->
    exists tr te g hs labels ls res hres classes lab gpts hpts guest host T acc,
      Permutation (tr ++ te) (seq 0 n) /\ length tr = m /\ holds g gh grecs tr /\ (forall i, i < 1 -> holds (hs i) hh hrecs tr) /\ holds_labels labels grecs tr /\ distinct (dt_values labels) ls /\
      fitted rnd pred lossf 1 g hs P bp par d labels ls gdraw hdraw (fun v => v) (fun v => v) (fun x => x) Ok classes lab gpts hpts guest [host] T res hres /\
      always_ends (both gen hgen) (Some acc) [tt] /\
      (clear_model rnd pred (seq 0 m) guest [host] P (kind ls) (dim ls) lab (reg_lambda par) (min_impurity par) d (fun _ => repeat true (length gh)) (fun _ _ => repeat true (length hh)) T ->
       alone gen' = Ok (Some acc)).
  Proof.
    intros BO SO AS IR HF Hit Hit' Hmn R1 LX. pose proof (jfiles BO) as FO.
    destruct (order_split seeded below py_float IR 1 n m ratio bp gfile gh grecs (fun _ => hfile) (fun _ => hh) (fun _ => hrecs) FO gen) as (tr & te & g1 & SP & PM & LT).
    destruct (data_split_seed seeded below (seq 0 n) ratio 2%Z gen gen' IR) as (tr' & te' & g2 & g3 & E1 & SP' & _). rewrite SP in E1. injection E1 as <- <- <-.
    destruct (order_at seeded below py_float IR 1 n m ratio bp gfile gh grecs (fun _ => hfile) (fun _ => hh) (fun _ => hrecs) FO gen hgen tr te g1 SP) as [GT HT].
    assert (LE : legal rnd pred 1 (train_source gh (part grecs tr) (part grecs te)) (fun _ => train_source hh (part hrecs tr) (part hrecs te)) sname P bp par depth stp d (place_labels grecs tr) (classes_in (place_labels grecs tr)) gdraw hdraw).
    { exact (script_legal py_float rnd pred 1 n m sname P bp par depth stp d fuel gdraw hdraw ratio gfile gh grecs (fun _ => hfile) (fun _ => hh) (fun _ => hrecs) FO SO HF tr te PM LT). }
    destruct (script_at seeded below py_float rnd pred lossf 1 n m sname it P bp par depth stp d fuel gdraw hdraw threshold ratio gfile gh grecs (fun _ => hfile) (fun _ => hh) (fun _ => hrecs) FO SO HF tr te PM LT
      (C := Qc) (E := Qc) (fun _ => Ok) Ok Ok (fun _ _ _ x => Ok x) qops (fun v => v) (fun v => v) (fun x => x) Ok gen hgen GT HT (plain_fit _ _ _ _ _ _ _ _ _ _ _ _ _ _ _ _ _ _ _ _ LE Hit) _ Hmn (done_ends _))
      as (rs & hres & classes & lab & gpts & hpts & guest & hosts & T & right & _ & _ & HG & HH & HLB & DL & FT & NR & RR & EN).
    destruct (ft_hosts _ _ _ _ _ _ _ _ _ _ _ _ _ _ _ _ _ _ _ _ _ _ _ _ _ _ _ FT) as (LH & LHR & SHS). destruct hosts as [|host [|]]; try discriminate LH. clear LH.
    exists tr, te, (train_source gh (part grecs tr) (part grecs te)), (fun _ => train_source hh (part hrecs tr) (part hrecs te)), (place_labels grecs tr), (classes_in (place_labels grecs tr)), rs, hres, classes, lab, gpts, hpts, guest, host, T,
      (fround (zq (Z.of_nat (length right)) / zq (Z.of_nat (length te)))%Qc).
    split; [exact PM|]. split; [exact LT|]. split; [exact HG|]. split; [exact HH|]. split; [exact HLB|]. split; [exact DL|]. split; [exact FT|]. split; [exact EN|]. intros CL.
    set (src := train_source (gh ++ hh) (part (glue grecs hrecs) tr) (part (glue grecs hrecs) te)). pose proof (xsource _ _ _ _ _ _ _ _ _ _ _ _ BO tr te PM LT) as SRC. fold src in SRC.
    destruct (loaded_ok bp par depth stp src SRC) as (_ & SE & OV & PO & _).
    destruct (jplaces BO tr te PM LT) as [PT _]. destruct (jwide BO) as [LG WG].
    destruct (ft_guest _ _ _ _ _ _ _ _ _ _ _ _ _ _ _ _ _ _ _ _ _ _ _ _ _ _ _ FT) as [SG _]. destruct (lookup_lt_is_Some_2 hres 0) as [r0 Hr0]; [lia|]. destruct (SHS 0 host r0 eq_refl Hr0) as [SH _].
    destruct (alone_core seeded below py_float rnd pred lossf n n m it' P bp par depth stp d draw enc threshold ratio gfile gh grecs hfile hh hrecs BO AS Hit' tr te PM LT gen' g3 SP'
      (with_valid (join_parties guest [host]) (repeat true (length (pts_of bp par depth stp src))))) as (rs' & classes' & lab' & T' & right' & FT' & RR' & EQ); [| | |exact Hmn|].
    - eapply party_both; eauto.
    - eapply sees_both; eauto.
    - eapply overwritten_both; eauto.
    - assert (LL : length right' = length right) by (eapply (same_right BO SO AS R1 LX tr te PM LT); eauto). rewrite EQ, LL. reflexivity.
  Qed.
End Join.
Print Assumptions C71_same_accuracy.

(** ** Example: the files of C70_accuracy_ex, in which the guest's column is the same in all rows *)
Lemma constant_cands (U : list nat) (p : party nat) : (1 <= p_min_leaf p)%Z -> (forall f k k', f < length (p_nb p) -> k ∈ U -> k' ∈ U -> p_bin p k f = p_bin p k' f) -> forall S, cands U p S = [].
Proof.
  intros ML EQ S. destruct (cands U p S) as [|[f b] l] eqn:E; [reflexivity|exfalso]. assert (Hf : (f, b) ∈ cands U p S) by (rewrite E; left). pose proof (cands_fid U p S f b Hf) as Lf.
  apply elem_of_list_In in Hf. unfold cands in Hf. destruct (_ <? _)%Z; [destruct Hf|]. apply in_flat_map in Hf as ([f' x] & _ & Hf). cbn [fst snd] in Hf. destruct (p_valid p !! f') as [[]|]; [|destruct Hf..].
  apply in_map_iff in Hf as (b' & [= <- <-] & Hb). apply filter_In in Hb as [_ Hb]. unfold allowed in Hb. apply andb_true_iff in Hb as [H1 H2]. apply Z.leb_le in H1, H2.
  assert (X : count_if (left_of p S f' b') U = count_if S U \/ count_if (left_of p S f' b') U = 0%Z); [|lia]. unfold count_if. destruct U as [|k0 U0]; [now left|].
  destruct (p_bin p k0 f' <=? b') eqn:C; [left|right].
  - f_equal. f_equal. apply filter_ext_in. intros k Hk. unfold left_of. rewrite (EQ f' k k0 Lf) by (try (now left); now apply elem_of_list_In). rewrite C. apply andb_true_r.
  - rewrite (filter_ext_in _ (fun _ => false)); [generalize (k0 :: U0) as V; induction V as [|? ? IH]; [reflexivity|exact IH]|]. intros k Hk. unfold left_of. rewrite (EQ f' k k0 Lf) by (try (now left); now apply elem_of_list_In). rewrite C. apply andb_false_r.
Qed.
Lemma constant_clear (U : list nat) lam mi guest hosts vg vh : (forall S, cands U guest S = []) -> forall d t S, clear_cut U lam mi guest hosts vg vh d t S.
Proof.
  intros E. induction d as [|d IH]; intros t S; [exact Logic.I|]. cbn [clear_cut]. split.
  - intros a x [Ha _]. unfold JoinSpec.gains_of in Ha. rewrite E in Ha. inversion Ha.
  - destruct t; [exact Logic.I|]. auto.
Qed.
Example C71_same_accuracy_ex : always_ends (scripts (fun _ => 1) sex_below sex_float (fun x => x) bex_pred bex_loss 1 ex_name IGain (bex_par 2 false) pex_bp pex_par 3 4 3 (fun _ _ => bex_draw) (fun _ _ _ => bex_draw) (Q2Qc (1 # 2)) (Q2Qc (2 # 3))
  (xex_gfile xex_grecs) (fun _ => xex_hfile 122 xex_hrecs) (C := Qc) (E := Qc) (fun _ => Ok) Ok Ok (fun _ _ _ x => Ok x) qops 3 (fun _ => 8)) (Some (zq 1)) [tt].
Proof.
  destruct C70_ex as (BO & AS & IR).
  assert (AS' : alone_settings (fun x => x) bex_pred (bex_par 2 false) pex_par 3 4 2 (fun _ _ => bex_draw) (fun _ => @Ok (dtable nat (Qc * Qc)))) by (destruct AS as [A1 A2 A3 A4 A5 A6]; split; auto; split; auto).
  destruct (C71_same_accuracy (fun _ => 1) sex_below sex_float (fun x => x) bex_pred bex_loss 6 4 IGain IGain (bex_par 2 false) pex_bp pex_par 3 4 2 (fun _ _ => bex_draw) (fun _ => Ok) (Q2Qc (1 # 2)) (Q2Qc (2 # 3))
    (xex_gfile xex_grecs) [[120%Z]] xex_grecs (xex_hfile 122 xex_hrecs) [[122%Z]] xex_hrecs ex_name 3 (fun _ _ => bex_draw) (fun _ _ _ => bex_draw) 3 7 (fun _ => 8) BO (sex_settings (fun x => x) ltac:(split; auto)) AS' IR)
    as (tr & te & g & hs & labels & ls & rs & hres & classes & lab & gpts & hpts & guest & host & T & acc & PM & LT & HG & _ & _ & _ & FT & EN & CL); [lia|discriminate|discriminate|lia|reflexivity|discriminate|].
  assert (CL' : xex_script (xex_hfile 122 xex_hrecs) = Ok (Some acc)); [|rewrite C70_accuracy_ex in CL'; injection CL' as <-; exact EN]. apply CL. intros r c t _ _. apply constant_clear. apply constant_cands.
  all: destruct (ft_guest _ _ _ _ _ _ _ _ _ _ _ _ _ _ _ _ _ _ _ _ _ _ _ _ _ _ _ FT) as [(S1 & _ & _ & S4 & _ & S6 & S7) _]; cbn [with_valid p_min_leaf p_nb p_bin].
  - rewrite S6. vm_compute. discriminate.
  - destruct HG as (H1 & H2 & H3). intros f k k' Hf Hk Hk'. rewrite S4, map_length in Hf. destruct (lookup_lt_is_Some_2 gpts f Hf) as [p Hp]. apply elem_of_seq in Hk, Hk'.
    assert (V : forall k, k < length tr -> value g k f = entry xex_grecs 0 f).
    { intros i Hi. destruct (lookup_lt_is_Some_2 tr i Hi) as [pos Hpos]. rewrite (H3 i pos f Hpos). assert (Lp : pos < 6). { assert (X : pos ∈ seq 0 6) by (rewrite <- PM; apply elem_of_app; left; eapply elem_of_list_lookup_2; eauto). apply elem_of_seq in X. lia. }
      do 6 (destruct pos as [|pos]; [reflexivity|]). lia. }
    apply (is_bin_unique p (entry xex_grecs 0 f)); [rewrite <- (V k) by lia|rewrite <- (V k') by lia]; apply S7; try exact Hp; apply H2; lia.
Qed.

(** ** Near ties: two files for which the programs print 1 and 0. The guest's column divides the six training rows 3 : 3, the
    host's 1 : 5; the host's gain is larger by about 10^-7. *)
Definition nex_grecs : list (record Qc) := [sex_rec 97 48 51; sex_rec 98 48 51; sex_rec 99 49 50; sex_rec 100 49 50; sex_rec 101 48 51; sex_rec 102 49 50; sex_rec 103 49 50; sex_rec 104 48 50; sex_rec 105 49 51].
Definition nex_hrecs : list (record Qc) := [sex_rec 97 48 50; sex_rec 98 48 51; sex_rec 99 48 50; sex_rec 100 48 50; sex_rec 101 48 50; sex_rec 102 48 50; sex_rec 103 48 51; sex_rec 104 48 50; sex_rec 105 48 50].
Definition nex_par : sparams := SParams (zq 100) (Q2Qc (1 # 1000)) 2 1.
Definition nex_both : sys (msg nat Qc Qc) (option Qc) unit :=
  scripts (fun _ => 1) sex_below sex_float (fun x => x) bex_pred bex_loss 1 ex_name IGain (bex_par 1 false) pex_bp nex_par 2 4 2 (fun _ _ => bex_draw) (fun _ _ _ => bex_draw) (Q2Qc (1 # 2)) (Q2Qc (2 # 3))
    (xex_gfile nex_grecs) (fun _ => xex_hfile 122 nex_hrecs) (C := Qc) (E := Qc) (fun _ => Ok) Ok Ok (fun _ _ _ x => Ok x) qops 7 (fun _ => 8).
Definition nex_alone : res (option Qc) :=
  xgb_script (C := Qc) (fun x => x) bex_pred bex_loss (bex_par 1 false) pex_bp nex_par 2 4 (fun _ => 1) sex_below sex_float IGain (fun _ _ => bex_draw) (fun _ => Ok) (Q2Qc (1 # 2)) (xex_gfile nex_grecs) (xex_hfile 122 nex_hrecs) (Q2Qc (2 # 3)) 7.
Lemma nex_sheet (h : text) recs n : length recs = n -> 1 <= n -> forallb (fun r => match r with Rec _ _ [([v], x)] => (48 <=? v)%Z && (v <=? 57)%Z && bool_decide (x = zq (v - 48)) | _ => false end) recs = true -> sheet sex_float n [h] recs.
Proof.
  intros L N F. assert (X : forall r, r ∈ recs -> exists v, r_cells r = [([v], zq (v - 48))] /\ (48 <=? v)%Z && (v <=? 57)%Z = true).
  { intros r Hr. rewrite forallb_forall in F. apply elem_of_list_In in Hr. apply F in Hr. destruct r as [i y [|[[|v [|]] x] [|]]]; try discriminate. apply andb_prop in Hr as [H1 H2]. apply bool_decide_eq_true_1 in H2 as ->. exists v. auto. }
  split.
  - exact L.
  - apply Forall_forall. intros r Hr. destruct (X r Hr) as (v & -> & _). reflexivity.
  - apply Forall_forall. intros r Hr. destruct (X r Hr) as (v & E & B). unfold denotes. rewrite E. constructor; [|constructor]. unfold sex_float, digit. cbn [fst]. rewrite B. reflexivity.
  - apply NoDup_singleton.
  - split; [cbn; lia|cbn; lia].
Qed.
Lemma nex_ok : both_ok sex_float pex_bp 9 9 6 (Q2Qc (2 # 3)) (xex_gfile nex_grecs) [[120%Z]] nex_grecs (xex_hfile 122 nex_hrecs) [[122%Z]] nex_hrecs /\
  settings_ok (fun x => x) bex_pred 1 ex_name (bex_par 1 false) nex_par 2 4 1 (fun _ _ => bex_draw) (fun _ _ _ => bex_draw) /\
  alone_settings (fun x => x) bex_pred (bex_par 1 false) nex_par 2 4 1 (fun _ _ => bex_draw) (fun _ => @Ok (dtable nat (Qc * Qc))).
Proof.
  split; [|split].
  - split.
    + apply nex_sheet; [reflexivity|lia|vm_compute; reflexivity].
    + exists [105%Z], [121%Z]. split; [apply grid_dec; vm_compute; reflexivity|]. apply (stored_full _ [NL]). now left.
    + apply nex_sheet; [reflexivity|lia|vm_compute; reflexivity].
    + apply xex_stored. apply grid_dec. vm_compute. reflexivity.
    + lia.
    + split; [apply NoDup_cons; split; [rewrite elem_of_list_singleton; discriminate|apply NoDup_singleton]|vm_compute; discriminate].
    + split; vm_compute; [discriminate|reflexivity].
    + split; [lia|]. split; [lia|]. vm_compute. discriminate.
    + split; [exact (proj1 (proj1 (proj2 C29_prepare_ex)))|]. split; [reflexivity|]. split; cbn; lia.
    + exists [[48%Z]; [49%Z]]. split; [cbn; lia|]. assert (X : Forall (fun r : record Qc => r_label r ∈ [[48%Z]; [49%Z]]) nex_grecs) by (repeat constructor; cbn; repeat rewrite elem_of_cons; tauto). exact (proj1 (Forall_forall _ _) X).
  - destruct (sex_settings (fun x => x) ltac:(split; auto)) as [A0 A1 A2 A3 A4 A5 A6 A7]. split; auto. split; [reflexivity|]. split; [lia|]. split; [discriminate|]. split; [reflexivity|vm_compute; discriminate].
  - destruct (sex_settings (fun x => x) ltac:(split; auto)) as [A0 A1 A2 A3 A4 [A5 _] A6 A7]. split; auto; [|intros j gs _ _; eauto]. split; [reflexivity|]. split; [lia|]. split; [discriminate|]. split; [reflexivity|vm_compute; discriminate].
Qed.
Definition nex_acc : Qc := match s_guest (run 1000 nex_both).2 with Ret (Some a) => a | _ => zq 2 end.
Lemma nex_run : nsteps step (run 1000 nex_both).1 nex_both (done (Some nex_acc) [tt]).
Proof. pose proof (run_ok 1000 nex_both) as R. assert (E : (run 1000 nex_both).2 = done (Some nex_acc) [tt]) by (vm_compute; reflexivity). rewrite E in R. exact R. Qed.
Theorem C71_near_tie_refuted : exists P par gfile gh grecs hfile hh hrecs N a a',
  both_ok sex_float pex_bp 9 9 6 (Q2Qc (2 # 3)) gfile gh grecs hfile hh hrecs /\ settings_ok (fun x => x) bex_pred 1 ex_name P par 2 4 1 (fun _ _ => bex_draw) (fun _ _ _ => bex_draw) /\
  alone_settings (fun x => x) bex_pred P par 2 4 1 (fun _ _ => bex_draw) (fun _ => @Ok (dtable nat (Qc * Qc))) /\ in_range sex_below /\ b_rate P = 1%Qc /\ b_early P = false /\
  nsteps step N (scripts (fun _ => 1) sex_below sex_float (fun x => x) bex_pred bex_loss 1 ex_name IGain P pex_bp par 2 4 2 (fun _ _ => bex_draw) (fun _ _ _ => bex_draw) (Q2Qc (1 # 2)) (Q2Qc (2 # 3))
    gfile (fun _ => hfile) (C := Qc) (E := Qc) (fun _ => Ok) Ok Ok (fun _ _ _ x => Ok x) qops 7 (fun _ => 8)) (done (Some a) [tt]) /\
  xgb_script (C := Qc) (fun x => x) bex_pred bex_loss P pex_bp par 2 4 (fun _ => 1) sex_below sex_float IGain (fun _ _ => bex_draw) (fun _ => Ok) (Q2Qc (1 # 2)) gfile hfile (Q2Qc (2 # 3)) 7 = Ok (Some a') /\
  a = zq 1 /\ a' = zq 0.
Proof.
  exists (bex_par 1 false), nex_par, (xex_gfile nex_grecs), [[120%Z]], nex_grecs, (xex_hfile 122 nex_hrecs), [[122%Z]], nex_hrecs, (run 1000 nex_both).1, nex_acc, (zq 0). destruct nex_ok as (A & B & C).
  split; [exact A|]. split; [exact B|]. split; [exact C|]. split; [exact below_ok|]. split; [reflexivity|]. split; [reflexivity|]. split; [exact nex_run|]. split; [apply printed_eq; vm_compute; reflexivity|].
  split; [apply Qc_is_canon; vm_compute; reflexivity|reflexivity].
Qed.
Print Assumptions C71_near_tie_refuted.
