(** C66. *)
From Verif Require Import ScriptProofs P_Tree P_Binning TreeRun FloatProofs P_Pipe P_Boost P_Input.
Local Open Scope nat_scope.

(** *** The answer for a row exists and is unique *)
Lemma argmax (p : list Qc) : p <> [] -> exists i x, p !! i = Some x /\ (forall j z, p !! j = Some z -> (z <= x)%Qc) /\ forall j z, j < i -> p !! j = Some z -> (z < x)%Qc.
Proof.
  induction p as [|a p IH]; [congruence|]. intros _. destruct p as [|b p].
  { exists 0, a. split; [reflexivity|]. split; [|intros j z Hj; lia]. intros [|j] z Hz; [injection Hz as <-; apply Qcle_refl|discriminate]. }
  destruct IH as (i & x & Hi & Hm & Hf); [discriminate|]. destruct (qleb x a) eqn:E.
  - apply qleb_true in E. exists 0, a. split; [reflexivity|]. split; [|intros j z Hj; lia]. intros [|j] z Hz; [injection Hz as <-; apply Qcle_refl|]. eapply Qcle_trans; [exact (Hm j z Hz)|exact E].
  - apply qleb_false in E. exists (S i), x. split; [exact Hi|]. split.
    + intros [|j] z Hz; [injection Hz as <-; now apply Qclt_le_weak|exact (Hm j z Hz)].
    + intros [|j] z Hj Hz; [injection Hz as <-; exact E|]. apply (Hf j z); [lia|exact Hz].
Qed.
Lemma answer_total classes threshold p : classes <> [] -> length p = (if decide (2 < length classes) then length classes else 1) -> exists c x, answer classes threshold p c x.
Proof.
  intros CN LP. unfold answer. destruct (decide (length classes = 2)) as [E|NE].
  - rewrite E in LP. destruct (decide (2 < 2)); [lia|]. destruct p as [|x [|]]; try discriminate. set (i := if qltb threshold x then 1 else 0).
    destruct (lookup_lt_is_Some_2 classes i) as [c Hc]; [unfold i; rewrite E; destruct (qltb _ _); lia|]. exists c, x, i. split; [exact Hc|]. split; [reflexivity|]. unfold i.
    destruct (qltb threshold x) eqn:Q; [apply qltb_true in Q|apply qltb_false in Q]; (split; [|lia]); split; intros; auto; try lia. exfalso. qlra.
  - destruct (argmax p) as (i & x & Hi & Hm & Hf). { intros ->. cbn in LP. destruct (decide (2 < length classes)); lia. }
    destruct (lookup_lt_is_Some_2 classes i) as [c Hc]. { apply lookup_lt_Some in Hi. rewrite LP in Hi. destruct (decide (2 < length classes)); [exact Hi|]. destruct classes; [congruence|cbn; lia]. }
    exists c, x, i. auto.
Qed.

Lemma hits_length (o : list (nat * (label * label * Qc))) :
  length (filter (fun r : label * label => r.1 = r.2) (map (fun x => x.2.1) o)) = length (filter (fun kv => kv.2.1.1 = kv.2.1.2) o).
Proof.
  induction o as [|[k [[l c] x]] o IH]; [reflexivity|]. cbn [map]. destruct (decide (l = c)) as [e|e].
  - rewrite (filter_cons_True _ (snd (k, (l, c, x))).1) by exact e. rewrite (filter_cons_True _ (k, (l, c, x))) by exact e. cbn [length]. now rewrite IH.
  - rewrite (filter_cons_False _ (snd (k, (l, c, x))).1) by exact e. rewrite (filter_cons_False _ (k, (l, c, x))) by exact e. exact IH.
Qed.

Section Script.
  Context {G : Type} (seeded : Z -> G) (below : G -> nat -> nat * G) (py_float : text -> option Qc).
  Context (rnd : Qc -> Qc) (pred : loss_kind -> list Qc -> list Qc) (lossf : loss_kind -> dtable nat nat -> dtable nat (list Qc) -> Qc).
  Context (nh n m : nat) (sname : nat -> site) (it : imp_type) (P : bparams) (bp : bin_params) (par : sparams) (depth stp d fuel : nat).
  Context (gdraw : nat -> nat -> nat -> list nat) (hdraw : nat -> nat -> nat -> nat -> list nat) (threshold ratio : Qc).
  Context (gfile : text) (gh : list text) (grecs : list (record Qc)) (hfile : nat -> text) (hh : nat -> list text) (hrecs : nat -> list (record Qc)).

  (** All parties run their program. *)
  Definition scripts {C E} (enc : nat -> dtable nat (Qc * Qc) -> res (dtable nat (C * C))) (dec : C -> res Qc) (gdec : E -> res Qc) (genc : nat -> nat -> nat -> Qc -> res E) (Ops : numops C)
      (gen : G) (hgen : nat -> G) : sys (msg nat C E) (option Qc) unit :=
    sysof nh (guest_script rnd pred lossf P bp par depth stp seeded below py_float nh fuel it gdraw enc dec gdec genc threshold gfile ratio gen Ret)
      (fun i => host_script P bp par depth stp seeded below py_float fuel Ops (sname i) (hdraw i) (hfile i) ratio (hgen i) Ret).

  (** The score of the row at position [pos]: the rows of all files at that position, side by side, walk down the trees. *)
  Definition score_at (ls : list label) (gpts : list (list Qc)) (hpts : nat -> list (list Qc)) (T : list dtree) (r : nat) (pos : nat) : list Qc :=
    scores rnd (b_lr P) (if decide (2 < length ls) then length ls else 1) (fun j pos => pwalk (entries grecs hrecs pos) (tree_at gpts hpts T j)) r pos.
  (** What happens: the rows are divided by their positions in the files, the same way by all parties; the model is that of C65 for
      the training rows side by side; what is printed is the rounded share of the test rows for which the walk gives the label. *)
  Definition outcome_at (tr te : list nat) (g : source nat text) (hs : nat -> source nat text) (labels : dtable nat label) (ls : list label)
      (eg eh : (nat -> Qc) -> nat -> Qc) (rn : Qc -> Qc) (rt : Qc -> res Qc) (ends : option Qc -> list unit -> Prop) : Prop :=
    exists res hres classes lab gpts hpts guest hosts T right,
      Permutation (tr ++ te) (seq 0 n) /\ length tr = m /\
      holds g gh grecs tr /\ (forall i, i < nh -> holds (hs i) (hh i) (hrecs i) tr) /\ holds_labels labels grecs tr /\ distinct (dt_values labels) ls /\
      fitted rnd pred lossf nh g hs P bp par d labels ls gdraw hdraw eg eh rn rt classes lab gpts hpts guest hosts T res hres /\
      NoDup right /\
      (forall pos, pos ∈ right <-> pos ∈ te /\ exists r x, grecs !! pos = Some r /\
         answer classes threshold (pred (if decide (length ls = 2) then Sigmoid else Softmax) (score_at ls gpts hpts T (length (bs_hist res.2)) pos)) (word (r_label r)) x) /\
      ends (Some (fround (zq (Z.of_nat (length right)) / zq (Z.of_nat (length te)))%Qc)) (replicate nh tt).
  Definition outcome (eg eh : (nat -> Qc) -> nat -> Qc) (rn : Qc -> Qc) (rt : Qc -> res Qc) (ends : option Qc -> list unit -> Prop) : Prop :=
    exists tr te g hs labels ls, outcome_at tr te g hs labels ls eg eh rn rt ends.
  (** Every schedule ends with the guest's result [r] and the hosts' results [rs]. *)
  Definition always_ends {C E} (s0 : sys (msg nat C E) (option Qc) unit) (r : option Qc) (rs : list unit) : Prop :=
    exists N, forall q s, nsteps step q s0 s -> q <= N /\ nsteps step (N - q) s (done r rs).

  (** Every schedule ends with the exception [e] at all parties. *)
  Definition all_raise (e : exn) {C E} (s0 : sys (msg nat C E) (option Qc) unit) : Prop :=
    exists N, forall q s, nsteps step q s0 s -> q <= N /\ nsteps step (N - q) s (sysof nh (Fail e) (fun _ => Fail e)).
  Lemma failed_nf {C E} e : nf step (sysof nh (Fail e) (fun _ => Fail e) : sys (msg nat C E) (option Qc) unit).
  Proof.
    assert (X : forall i p d u, map (fun _ : nat => (@Fail unit (msg nat C E) unit e, @nil (msg nat C E), @nil (msg nat C E))) (seq 0 nh) !! i = Some (p, d, u) -> p = Fail e).
    { intros i p d0 u H. apply elem_of_list_lookup_2 in H. apply elem_of_list_fmap in H as (x & [= -> -> ->] & _). reflexivity. }
    intros [t H]. unfold sysof in H. inversion H as [| |g0 j k l hs0 d0 u L|g0 j k hs0 l d0 u L]; subst; apply X in L; discriminate.
  Qed.

  Section Proof.
    Context (FO : files_ok py_float bp nh n m ratio gfile gh grecs hfile hh hrecs) (SO : settings_ok rnd pred nh sname P par depth stp d gdraw hdraw).
    Context (IR : in_range below) (HF : d < fuel).
    Context (tr te : list nat) (PM : Permutation (tr ++ te) (seq 0 n)) (LT : length tr = m).
    Local Notation gs := (train_source gh (part grecs tr) (part grecs te)).
    Local Notation hsrc := (fun i => train_source (hh i) (part (hrecs i) tr) (part (hrecs i) te)).
    Local Notation labels := (place_labels grecs tr).
    Local Notation ls := (classes_in labels).

    Lemma positions : Forall (fun p => p < n) tr /\ Forall (fun p => p < n) te /\ NoDup te /\ length te = n - m /\ tr <> [] /\ (m < n -> te <> []).
    Proof.
      destruct (fo_parts _ _ _ _ _ _ _ _ _ _ _ _ FO) as (P1 & P2 & _). assert (LA : length (tr ++ te) = n) by (rewrite PM; apply seq_length). rewrite app_length in LA.
      assert (A : forall p, p ∈ tr ++ te -> p < n). { intros p Hp. rewrite PM in Hp. apply elem_of_seq in Hp. lia. }
      assert (ND : NoDup (tr ++ te)). { rewrite PM. apply NoDup_ListNoDup, seq_NoDup. } apply NoDup_app in ND as (_ & _ & ND).
      split_and!.
      - apply Forall_forall. intros p Hp. apply A, elem_of_app. now left.
      - apply Forall_forall. intros p Hp. apply A, elem_of_app. now right.
      - exact ND.
      - lia.
      - intros ->. cbn in LT. lia.
      - intros Hm ->. cbn in LA. lia.
    Qed.
    Lemma part_nil recs o : o <> [] -> part recs o <> [].
    Proof. unfold part. destruct o; [congruence|discriminate]. Qed.
    Lemma sheet_source h recs : sheet py_float n h recs -> source_ok bp (train_source h (part recs tr) (part recs te)).
    Proof.
      intros [RW WD NU NM [C1 C2]]. destruct positions as (A & B & _ & _ & NE & _). split; [exact NM|]. split; [exact C1|]. split; [exact C2|]. split.
      - apply train_rows; [|now apply part_nil]. apply part_wide; [exact WD|now rewrite RW].
      - unfold dt_count. cbn [so_rows train_source]. unfold locs, rtab. cbn [dt_data]. rewrite imap_length. unfold part. rewrite map_length, LT. exact (fo_bins _ _ _ _ _ _ _ _ _ _ _ _ FO).
    Qed.
    Lemma source_holds h recs : holds (train_source h (part recs tr) (part recs te)) h recs tr.
    Proof.
      split; [reflexivity|]. split.
      - intros k. cbn [so_rows train_source]. unfold locs. rewrite rtab_key. unfold part. now rewrite map_length.
      - intros k pos f Hk. rewrite train_value, part_value, Hk. reflexivity.
    Qed.
    Lemma guest_keys : dt_keys (so_rows gs) = seq 0 m.
    Proof. cbn [so_rows train_source]. unfold locs. rewrite rtab_keys. unfold part. now rewrite map_length, LT. Qed.

    Lemma script_legal : legal rnd pred nh gs hsrc sname P bp par depth stp d labels ls gdraw hdraw.
    Proof.
      destruct SO as [A1 A2 A3 A4 A5 A6 A7 A8]. destruct positions as (PT & _). destruct (fo_parts _ _ _ _ _ _ _ _ _ _ _ _ FO) as (_ & P2 & P3). pose proof (classes_in_ok labels) as DL. split; auto.
      - apply sheet_source. exact (fo_guest _ _ _ _ _ _ _ _ _ _ _ _ FO).
      - intros i Hi. apply sheet_source. exact (fo_host _ _ _ _ _ _ _ _ _ _ _ _ FO i Hi).
      - intros i k _. cbn [so_rows train_source]. unfold locs. rewrite !rtab_key. unfold part. now rewrite !map_length.
      - replace (dt_count (so_rows gs)) with m; [lia|]. unfold dt_count. cbn [so_rows train_source]. unfold locs, rtab. cbn [dt_data]. rewrite imap_length. unfold part. now rewrite map_length.
      - split; [apply rtab_wf|]. intros k. cbn [so_rows train_source]. unfold locs, place_labels. rewrite !rtab_key. unfold part. now rewrite map_length.
      - split; [exact DL|]. assert (X : forall l, l ∈ ls -> exists r, r ∈ grecs /\ l = text_label (r_label r)).
        { intros l Hl. apply (proj2 DL) in Hl. unfold place_labels in Hl. rewrite rtab_values in Hl. apply elem_of_lookup_imap in Hl as (i & p & -> & Hp). destruct (fo_guest _ _ _ _ _ _ _ _ _ _ _ _ FO) as [RW _ _ _ _].
          destruct (lookup_lt_is_Some_2 grecs p) as [r Hr]. { rewrite RW. rewrite Forall_forall in PT. apply PT. eapply elem_of_list_lookup_2; eauto. }
          exists r. split; [eapply elem_of_list_lookup_2; eauto|]. unfold rec_at. now rewrite Hr. }
        split.
        + right. intros l Hl. destruct (X l Hl) as (r & _ & ->). cbn. tauto.
        + destruct (fo_labels _ _ _ _ _ _ _ _ _ _ _ _ FO) as (L & LL & HL). etransitivity; [|exact LL]. rewrite <- (map_length text_label L). apply submseteq_length, NoDup_submseteq; [apply DL|].
          intros l Hl. destruct (X l Hl) as (r & Hr & ->). apply elem_of_list_fmap. exists (r_label r). auto.
    Qed.

    (** Walking with the values of a table or with the entries of the files. *)
    Lemma walk_at (x y : option nat -> nat -> Qc) pts t : owners_in nh t -> (forall own f, match own with None => True | Some i => i < nh end -> x own f = y own f) -> pwalk x (cut pts t) = pwalk y (cut pts t).
    Proof.
      intros OI XY. induction t as [w a b|w a b c gn l IHl r IHr]; [reflexivity|]. cbn [cut owners_in pwalk] in *. destruct OI as (Oc & Ol & Or). rewrite (IHl Ol), (IHr Or), (XY (ch_own c)); [reflexivity|]. destruct (ch_own c); auto.
    Qed.

    Context {C E : Type} (enc : nat -> dtable nat (Qc * Qc) -> res (dtable nat (C * C))) (dec : C -> res Qc) (gdec : E -> res Qc) (genc : nat -> nat -> nat -> Qc -> res E) (Ops : numops C).
    Context (eg eh : (nat -> Qc) -> nat -> Qc) (rn : Qc -> Qc) (rt : Qc -> res Qc) (gen : G) (hgen : nat -> G).
    Context (GT : guest_tables seeded below py_float gfile ratio gen = Ok (gh, dt_new_unkeyed (map guest_inst (map (rec_at grecs) tr)), dt_new_unkeyed (map guest_inst (map (rec_at grecs) te)))).
    Context (HT : forall i, i < nh -> host_tables seeded below py_float (hfile i) ratio (hgen i) = Ok (hh i, dt_new_unkeyed (map host_inst (map (rec_at (hrecs i)) tr)), dt_new_unkeyed (map host_inst (map (rec_at (hrecs i)) te)))).
    Context (FR : fit_runs rnd pred lossf nh gs hsrc sname it P bp par depth stp d labels ls gdraw hdraw C E (option Qc) unit enc dec gdec genc Ops eg eh rn rt).

    Lemma locs_len {A B} first (a : list A) (b : list B) : length a = length b -> locs first a = locs first b.
    Proof.
      intros L. unfold locs, rtab. f_equal. apply list_eq. intros i. rewrite !list_lookup_imap. destruct (a !! i) as [x|] eqn:Ea.
      - destruct (lookup_lt_is_Some_2 b i) as [y Ey]; [rewrite <- L; eapply lookup_lt_Some; eauto|]. now rewrite Ey.
      - apply lookup_ge_None in Ea. assert (Eb : b !! i = None) by (apply lookup_ge_None; lia). now rewrite Eb.
    Qed.

    Lemma feats_guest recs o : map inst_features (map guest_inst (map (rec_at recs) o)) = part recs o. Proof. rewrite !map_map. reflexivity. Qed.
    Lemma feats_host recs o : map inst_features (map host_inst (map (rec_at recs) o)) = part recs o. Proof. rewrite !map_map. reflexivity. Qed.
    Lemma count_eq (f : record Qc -> instance Qc) recs : dt_count (dt_new_unkeyed (map f (map (rec_at recs) tr))) = length (part recs tr).
    Proof. rewrite unkeyed_rtab. unfold dt_count, rtab, part. cbn [dt_data]. now rewrite imap_length, !map_length. Qed.

    Lemma script_at (ends : option Qc -> list unit -> Prop) : m < n -> (forall r rs, rtc hand (scripts enc dec gdec genc Ops gen hgen) (done r rs) -> ends r rs) -> outcome_at tr te gs hsrc labels ls eg eh rn rt ends.
    Proof.
      intros Hmn ENDS. destruct FR as (rs & hm & classes & lab & gpts & hpts & guest & hosts & T & RU & FT & _ & _ & PR).
      destruct positions as (PT & PE & NT & LE & NTR & NTE). specialize (NTE Hmn).
      destruct (ft_guest _ _ _ _ _ _ _ _ _ _ _ _ _ _ _ _ _ _ _ _ _ _ _ _ _ _ _ FT) as [_ (_ & OG & _)].
      destruct (ft_hosts _ _ _ _ _ _ _ _ _ _ _ _ _ _ _ _ _ _ _ _ _ _ _ _ _ _ _ FT) as (LH1 & LH2 & OH).
      set (g' := test_source gh (part grecs tr) (part grecs te) rs.1.1).
      set (hs' := fun i => test_source (hh i) (part (hrecs i) tr) (part (hrecs i) te) (hm i).1).
      assert (OH' : forall i, i < nh -> forall l, l ∉ dt_values (locs 0 (part (hrecs i) tr)) -> (hm i).1 !! l = mem (part (hrecs i) tr) (part (hrecs i) te) !! l).
      { intros i Hi. destruct (lookup_lt_is_Some_2 hosts i) as [p Hp]; [lia|]. destruct (OH i p (hm i) Hp) as [_ (_ & X & _)]; [rewrite map_lookup, lookup_seq_lt by exact Hi; reflexivity|]. exact X. }
      assert (WD : forall h recs, sheet py_float n h recs -> Forall (fun r => length r = length h) (part recs te)).
      { intros h recs [RW W _ _ _]. apply part_wide; [exact W|now rewrite RW]. }
      assert (RG : rows_ok g'). { apply test_rows; [apply WD; exact (fo_guest _ _ _ _ _ _ _ _ _ _ _ _ FO)|exact OG|now apply part_nil]. }
      assert (RH : forall i, i < nh -> rows_ok (hs' i)). { intros i Hi. apply test_rows; [apply WD; exact (fo_host _ _ _ _ _ _ _ _ _ _ _ _ FO i Hi)|exact (OH' i Hi)|now apply part_nil]. }
      destruct (PR C E (option Qc) unit g' hs' (place_labels grecs te) threshold fuel RG RH (rtab_wf _ _) HF) as (gh' & out & al & RP & _ & _ & WO & GO).
      (* scores *)
      set (kind := if decide (length ls = 2) then Sigmoid else Softmax) in *.
      set (sc := fun pos => score_at ls gpts hpts T (length (bs_hist rs.2)) pos).
      assert (VJ : forall k pos own f, te !! k = Some pos -> match own with None => True | Some i => i < nh end -> joined g' hs' k own f = entries grecs hrecs pos own f).
      { intros k pos own f Hk Ho. unfold joined, entries. destruct own as [i|].
        - unfold hs'. rewrite (test_value (hh i) (part (hrecs i) tr) (part (hrecs i) te) _ (OH' i Ho)), part_value, Hk. reflexivity.
        - unfold g'. rewrite (test_value gh (part grecs tr) (part grecs te) _ OG), part_value, Hk. reflexivity. }
      assert (SC : forall k pos, te !! k = Some pos -> score_of rnd P ls gpts hpts T (length (bs_hist rs.2)) g' hs' k = sc pos).
      { intros k pos Hk. unfold sc, score_at, score_of, scores. apply map_ext. intros c. unfold BoostSpec.score. f_equal. apply map_ext. intros r. unfold tree_at.
        destruct (T !! _) as [t|] eqn:Ht; [|reflexivity]. apply walk_at; [|intros own f Ho; now apply VJ].
        apply (ft_shape _ _ _ _ _ _ _ _ _ _ _ _ _ _ _ _ _ _ _ _ _ _ _ _ _ _ _ FT t). eapply elem_of_list_lookup_2; eauto. }
      assert (GO' : forall k l c x, (k, (l, c, x)) ∈ dt_data out <-> exists pos r, te !! k = Some pos /\ grecs !! pos = Some r /\ l = text_label (r_label r) /\ answer classes threshold (pred kind (sc pos)) c x).
      { intros k l c x. rewrite GO. assert (HL : holds_labels (place_labels grecs te) grecs te). { apply labels_hold. now rewrite (sh_rows _ _ _ _ (fo_guest _ _ _ _ _ _ _ _ _ _ _ _ FO)). }
        unfold holds_labels in HL. rewrite HL. split.
        - intros ((pos & r & Hk & Hr & ->) & _ & _ & A). exists pos, r. rewrite (SC k pos Hk) in A. auto.
        - intros (pos & r & Hk & Hr & -> & A). split; [eauto|]. split. { unfold g', test_source. cbn [so_rows]. unfold locs. rewrite rtab_key. unfold part. rewrite map_length. eapply lookup_lt_Some; eauto. }
          split. { intros t _. right. intros i _. unfold hs', test_source. cbn [so_rows]. unfold locs. rewrite rtab_key. unfold part. rewrite map_length. eapply lookup_lt_Some; eauto. }
          rewrite (SC k pos Hk). exact A. }
      assert (LC : length classes = length ls).
      { destruct (ft_classes _ _ _ _ _ _ _ _ _ _ _ _ _ _ _ _ _ _ _ _ _ _ _ _ _ _ _ FT) as [DC _]. apply Permutation_length. eapply distinct_perm; [exact DC|apply classes_in_ok]. }
      assert (CN : classes <> []).
      { intros ->. destruct tr as [|p0 tr0]; [congruence|]. destruct (classes_in_ok (place_labels grecs (p0 :: tr0))) as [_ DL].
        assert (X : text_label (r_label (rec_at grecs p0)) ∈ classes_in (place_labels grecs (p0 :: tr0))) by (apply DL; left).
        rewrite (nil_length_inv _ (eq_sym LC)) in X. inversion X. }
      assert (KO : forall k, k ∈ dt_keys out <-> k < length te).
      { intros k. unfold dt_keys. rewrite elem_of_list_fmap. split.
        - intros ([k' [[l c] x]] & -> & Hk). apply GO' in Hk as (pos & r & Hk & _). cbn. eapply lookup_lt_Some; eauto.
        - intros Hk. destruct (lookup_lt_is_Some_2 te k Hk) as [pos Hp]. destruct (lookup_lt_is_Some_2 grecs pos) as [r Hr].
          { rewrite (sh_rows _ _ _ _ (fo_guest _ _ _ _ _ _ _ _ _ _ _ _ FO)). rewrite Forall_forall in PE. apply PE. eapply elem_of_list_lookup_2; eauto. }
          destruct (answer_total classes threshold (pred kind (sc pos)) CN) as (c & x & A).
          { destruct (st_probs _ _ _ _ _ _ _ _ _ _ _ SO kind (sc pos)) as [-> _]. unfold sc, score_at, scores. now rewrite map_length, seq_length, LC. }
          exists (k, (text_label (r_label r), c, x)). split; [reflexivity|]. apply GO'. eauto 8. }
      assert (LO : length (dt_data out) = length te).
      { rewrite <- (fmap_length fst (dt_data out)). change (length (dt_keys out) = length te). rewrite <- (seq_length (length te) 0). apply Permutation_length, NoDup_Permutation; [exact WO|apply NoDup_ListNoDup, seq_NoDup|].
        intros k. rewrite KO, elem_of_seq. lia. }
      set (rows := DT (map (fun kv : nat * (label * label * Qc) => (kv.1, kv.2.1)) (dt_data out)) : dtable nat (label * label)).
      destruct (C61_accuracy nat label _ rows) as (acc & EA & AC & _).
      { cbn [dt_data rows]. rewrite map_map. intros X. apply map_eq_nil in X. rewrite X in LO. cbn in LO. destruct te; [congruence|discriminate]. }
      { cbn [dt_data rows]. rewrite !map_length. fold (dt_data out). destruct (fo_parts _ _ _ _ _ _ _ _ _ _ _ _ FO) as (_ & _ & P3). rewrite LO. lia. }
      set (hits := filter (fun kv : nat * (label * label * Qc) => kv.2.1.1 = kv.2.1.2) (dt_data out)).
      set (right := map (fun kv : nat * (label * label * Qc) => nth kv.1 te 0) hits).
      assert (RR : forall pos, pos ∈ right <-> pos ∈ te /\ exists r x, grecs !! pos = Some r /\ answer classes threshold (pred kind (sc pos)) (text_label (r_label r)) x).
      { intros pos. unfold right. rewrite elem_of_list_fmap. split.
        - intros ([k [[l c] x]] & -> & Hk). apply elem_of_list_filter in Hk as [E1 Hk]. cbn in E1. subst c. apply GO' in Hk as (pos & r & Hp & Hr & -> & A). cbn.
          rewrite (nth_lookup_Some te k 0 pos Hp). split; [eapply elem_of_list_lookup_2; eauto|]. eauto.
        - intros (Hp & r & x & Hr & A). apply elem_of_list_lookup in Hp as [k Hk]. exists (k, (text_label (r_label r), text_label (r_label r), x)). cbn. split; [symmetry; now apply nth_lookup_Some|].
          apply elem_of_list_filter. split; [reflexivity|]. apply GO'. eauto 8. }
      assert (NR : NoDup right).
      { unfold right. apply NoDup_fmap_2_strong.
        - intros [k1 [[l1 c1] x1]] [k2 [[l2 c2] x2]] H1 H2 EQ. apply elem_of_list_filter in H1 as [_ H1]. apply elem_of_list_filter in H2 as [_ H2].
          pose proof H1 as G1. pose proof H2 as G2. apply GO' in G1 as (p1 & r1 & K1 & _). apply GO' in G2 as (p2 & r2 & K2 & _). cbn in EQ. rewrite (nth_lookup_Some te k1 0 p1 K1), (nth_lookup_Some te k2 0 p2 K2) in EQ. subst p2.
          assert (KK : k1 = k2) by (exact (NoDup_lookup te k1 k2 p1 NT K1 K2)). subst k2. assert (X : tget out k1 = Some (l1, c1, x1)) by (apply tget_elem; auto). assert (Y : tget out k1 = Some (l2, c2, x2)) by (apply tget_elem; auto). congruence.
        - apply NoDup_filter. apply (NoDup_fmap_1 fst). exact WO. }
      assert (AE : length (filter (fun r : label * label => r.1 = r.2) (map snd (dt_data rows))) = length right).
      { unfold right, hits. rewrite map_length. cbn [dt_data rows]. rewrite map_map. cbn [snd]. apply hits_length. }
      assert (LR : length (map snd (dt_data rows)) = length te) by (cbn [dt_data rows]; rewrite !map_length; exact LO).
      rewrite AE, LR in AC.
      assert (ALL : @runs (msg nat C E) (option Qc) unit nh _ _ (guest_script rnd pred lossf P bp par depth stp seeded below py_float nh fuel it gdraw enc dec gdec genc threshold gfile ratio gen)
         (fun i => host_script P bp par depth stp seeded below py_float fuel Ops (sname i) (hdraw i) (hfile i) ratio (hgen i)) (Some acc) (fun _ => tt)).
      { unfold guest_script, host_script. eapply runs_glift; [exact GT|]. cbn [fst snd]. cbv zeta. eapply runs_glift; [apply inst_labels_eq|].
        apply (runs_hlift nh _ (fun i => (hh i, dt_new_unkeyed (map host_inst (map (rec_at (hrecs i)) tr)), dt_new_unkeyed (map host_inst (map (rec_at (hrecs i)) te))))); [exact HT|]. cbn [fst snd].
        eapply (runs_ext nh _ (cbind (guest_job rnd pred lossf P bp par depth stp nh it gdraw enc dec gdec genc (so_header gs) (so_heap gs) (so_rows gs) labels)
          (fun r => cbind (clift (inst_labels (dt_new_unkeyed (map guest_inst (map (rec_at grecs) te)))))
             (fun labels' => cbind (guest_predict_job rnd pred P nh fuel r.1.2 (bs_trees r.2) threshold r.1.1 (locs (length (part grecs tr)) (part grecs te)) labels')
                (fun out => clift (accuracy (DT (map (fun kv => (kv.1, kv.2.1)) (dt_data out.2)))))))) _
          (fun i => cbind (host_job P bp par depth stp Ops (sname i) (hdraw i) (so_header (hsrc i)) (so_heap (hsrc i)) (so_rows (hsrc i)))
             (fun r => cbind (host_predict_job fuel (sname i) r.2 r.1 (locs (length (part (hrecs i) tr)) (part (hrecs i) te))) (fun _ => cret tt)))).
        - intros c. rewrite inst_heap_eq, !inst_locs_eq, !feats_guest, count_eq.
          now rewrite (locs_len 0 (map guest_inst (map (rec_at grecs) tr)) (part grecs tr)), (locs_len _ (map guest_inst (map (rec_at grecs) te)) (part grecs te)) by (unfold part; now rewrite !map_length).
        - intros i c _. rewrite inst_heap_eq, !inst_locs_eq, !feats_host, count_eq.
          now rewrite (locs_len 0 (map host_inst (map (rec_at (hrecs i)) tr)) (part (hrecs i) tr)), (locs_len _ (map host_inst (map (rec_at (hrecs i)) te)) (part (hrecs i) te)) by (unfold part; now rewrite !map_length).
        - reflexivity.
        - refine (runs_seq nh _ _ _ _ _ _ _ _ RU _). eapply runs_glift; [apply inst_labels_eq|]. refine (runs_seq nh _ _ _ _ _ _ _ _ RP _). cbn [fst snd]. intros kg kh. fold rows. unfold clift. rewrite EA. apply rtc_refl. }
      exists rs, (map hm (seq 0 nh)), classes, lab, gpts, hpts, guest, hosts, T, right.
      split; [exact PM|]. split; [exact LT|]. split; [apply source_holds|]. split; [intros i _; apply source_holds|]. split; [apply labels_hold; now rewrite (sh_rows _ _ _ _ (fo_guest _ _ _ _ _ _ _ _ _ _ _ _ FO))|].
      split; [apply classes_in_ok|]. split; [exact FT|]. split; [exact NR|]. split; [exact RR|]. apply ENDS. rewrite <- AC.
      replace (replicate nh tt) with (map (fun _ : nat => tt) (seq 0 nh)).
      - specialize (ALL Ret (fun _ => Ret)). unfold sysof at 2 in ALL. unfold done. rewrite map_map. exact ALL.
      - clear. generalize 0. induction nh as [|k IH]; intros z; [reflexivity|]. cbn. now rewrite IH.
    Qed.
    Lemma script_outcome (ends : option Qc -> list unit -> Prop) : m < n -> (forall r rs, rtc hand (scripts enc dec gdec genc Ops gen hgen) (done r rs) -> ends r rs) -> outcome eg eh rn rt ends.
    Proof. intros Hmn ENDS. exists tr, te, gs, hsrc, labels, ls. exact (script_at ends Hmn ENDS). Qed.
    Lemma script_no_test : m = n -> all_raise ValueError (scripts enc dec gdec genc Ops gen hgen).
    Proof.
      intros Hmn. destruct FR as (rs & hm & classes & lab & gpts & hpts & guest & hosts & T & RU & _). destruct positions as (_ & _ & _ & LE & _). assert (TE : te = []) by (destruct te; [reflexivity|cbn in LE; lia]).
      specialize (RU (fun _ => Fail ValueError) (fun _ _ => Fail ValueError)). apply hands_steps, rtc_nsteps in RU as [N RU]. exists N. apply ProcProofs.outcome; [|apply failed_nf].
      unfold scripts.
      rewrite (sysof_ext nh _ _ (fun i => host_job P bp par depth stp Ops (sname i) (hdraw i) (so_header (hsrc i)) (so_heap (hsrc i)) (so_rows (hsrc i)) (fun _ => Fail ValueError))).
      - assert (EG : guest_script rnd pred lossf P bp par depth stp seeded below py_float nh fuel it gdraw enc dec gdec genc threshold gfile ratio gen Ret =
          guest_job rnd pred lossf P bp par depth stp nh it gdraw enc dec gdec genc (so_header gs) (so_heap gs) (so_rows gs) labels (fun _ => @Fail nat (msg nat C E) (option Qc) ValueError)).
        { unfold guest_script. unfold cbind at 1. unfold clift at 1. rewrite GT. cbn [fst snd]. cbv zeta. unfold cbind at 1. unfold clift at 1. rewrite inst_labels_eq. rewrite inst_heap_eq, !inst_locs_eq, !feats_guest.
          rewrite (locs_len 0 (map guest_inst (map (rec_at grecs) tr)) (part grecs tr)) by (unfold part; now rewrite !map_length). rewrite TE. reflexivity. }
        rewrite EG. exact RU.
      - intros i Hi. unfold host_script. unfold cbind at 1. unfold clift at 1. rewrite (HT i Hi). cbn [fst snd]. cbv zeta. rewrite inst_heap_eq, !inst_locs_eq, !feats_host.
        rewrite (locs_len 0 (map host_inst (map (rec_at (hrecs i)) tr)) (part (hrecs i) tr)) by (unfold part; now rewrite !map_length). rewrite TE. reflexivity.
    Qed.
  End Proof.

  Lemma done_ends {C E} (s0 : sys (msg nat C E) (option Qc) unit) r rs : rtc hand s0 (done r rs) -> always_ends s0 r rs.
  Proof. intros H. apply hands_steps, rtc_nsteps in H as [N H]. exists N. apply ProcProofs.outcome; [exact H|apply done_nf]. Qed.
  Lemma plain_outcome gen hgen (ends : option Qc -> list unit -> Prop) : files_ok py_float bp nh n m ratio gfile gh grecs hfile hh hrecs -> settings_ok rnd pred nh sname P par depth stp d gdraw hdraw -> in_range below -> d < fuel -> it <> IOther -> m < n ->
    (forall r rs, rtc hand (scripts (C := Qc) (E := Qc) (fun _ => Ok) Ok Ok (fun _ _ _ x => Ok x) qops gen hgen) (done r rs) -> ends r rs) ->
    outcome (fun v => v) (fun v => v) (fun x => x) Ok ends.
  Proof.
    intros FO SO IR HF Hit Hmn EN. destruct (order_ok seeded below py_float IR nh n m ratio bp gfile gh grecs hfile hh hrecs FO gen hgen) as (tr & te & PM & LT & GT & HT).
    refine (script_outcome FO SO HF tr te PM LT _ _ _ _ _ _ _ _ _ gen hgen GT HT _ ends Hmn EN). apply plain_fit; [now apply script_legal|exact Hit].
  Qed.
  Lemma paillier_outcome gen hgen sk rg rh rr (ends : option Qc -> list unit -> Prop) : files_ok py_float bp nh n m ratio gfile gh grecs hfile hh hrecs -> settings_ok rnd pred nh sname P par depth stp d gdraw hdraw -> in_range below -> d < fuel -> it <> IOther -> m < n ->
    boost_paillier_ok (seq 0 m) sk rg rh rr (reg_lambda par) (min_impurity par) d ->
    (forall r rs, rtc hand (scripts (fun j => enc_table (sk_n sk) (rg j) (rh j)) (pdec sk) (fun e => pdec sk (CEnc e)) (fun j => pgenc (sk_n sk) (rr j)) pops gen hgen) (done r rs) -> ends r rs) ->
    outcome (fun v k => leaf_value (sk_n sk) (v k)) (fun v k => leaf_value (sk_n sk) (v k)) fround (prt (sk_n sk)) ends.
  Proof.
    intros FO SO IR HF Hit Hmn PK EN. destruct (order_ok seeded below py_float IR nh n m ratio bp gfile gh grecs hfile hh hrecs FO gen hgen) as (tr & te & PM & LT & GT & HT).
    refine (script_outcome FO SO HF tr te PM LT _ _ _ _ _ _ _ _ _ gen hgen GT HT _ ends Hmn EN). apply paillier_fit; [now apply script_legal|exact Hit|]. now rewrite guest_keys.
  Qed.

  (** Every schedule of the programs ends with the same accuracy, as described above. *)
  Theorem C66_plain gen hgen : files_ok py_float bp nh n m ratio gfile gh grecs hfile hh hrecs -> settings_ok rnd pred nh sname P par depth stp d gdraw hdraw -> in_range below -> d < fuel -> it <> IOther -> m < n ->
    outcome (fun v => v) (fun v => v) (fun x => x) Ok (always_ends (scripts (C := Qc) (E := Qc) (fun _ => Ok) Ok Ok (fun _ _ _ x => Ok x) qops gen hgen)).
  Proof. intros FO SO IR HF Hit Hmn. exact (plain_outcome gen hgen _ FO SO IR HF Hit Hmn (done_ends _)). Qed.
  Theorem C66_paillier gen hgen sk rg rh rr : files_ok py_float bp nh n m ratio gfile gh grecs hfile hh hrecs -> settings_ok rnd pred nh sname P par depth stp d gdraw hdraw -> in_range below -> d < fuel -> it <> IOther -> m < n ->
    boost_paillier_ok (seq 0 m) sk rg rh rr (reg_lambda par) (min_impurity par) d ->
    outcome (fun v k => leaf_value (sk_n sk) (v k)) (fun v k => leaf_value (sk_n sk) (v k)) fround (prt (sk_n sk))
      (always_ends (scripts (fun j => enc_table (sk_n sk) (rg j) (rh j)) (pdec sk) (fun e => pdec sk (CEnc e)) (fun j => pgenc (sk_n sk) (rr j)) pops gen hgen)).
  Proof. intros FO SO IR HF Hit Hmn PK. exact (paillier_outcome gen hgen sk rg rh rr _ FO SO IR HF Hit Hmn PK (done_ends _)). Qed.
  (** A ratio that leaves no row for the test: all programs train and then raise ValueError. *)
  Theorem C66_no_test_plain gen hgen : files_ok py_float bp nh n m ratio gfile gh grecs hfile hh hrecs -> settings_ok rnd pred nh sname P par depth stp d gdraw hdraw -> in_range below -> d < fuel -> it <> IOther -> m = n ->
    all_raise ValueError (scripts (C := Qc) (E := Qc) (fun _ => Ok) Ok Ok (fun _ _ _ x => Ok x) qops gen hgen).
  Proof.
    intros FO SO IR HF Hit Hmn. destruct (order_ok seeded below py_float IR nh n m ratio bp gfile gh grecs hfile hh hrecs FO gen hgen) as (tr & te & PM & LT & GT & HT).
    refine (script_no_test FO HF tr te PM LT _ _ _ _ _ (fun v => v) (fun v => v) (fun x => x) Ok gen hgen GT HT _ Hmn). apply plain_fit; [now apply script_legal|exact Hit].
  Qed.
  Theorem C66_no_test_paillier gen hgen sk rg rh rr : files_ok py_float bp nh n m ratio gfile gh grecs hfile hh hrecs -> settings_ok rnd pred nh sname P par depth stp d gdraw hdraw -> in_range below -> d < fuel -> it <> IOther -> m = n ->
    boost_paillier_ok (seq 0 m) sk rg rh rr (reg_lambda par) (min_impurity par) d ->
    all_raise ValueError (scripts (fun j => enc_table (sk_n sk) (rg j) (rh j)) (pdec sk) (fun e => pdec sk (CEnc e)) (fun j => pgenc (sk_n sk) (rr j)) pops gen hgen).
  Proof.
    intros FO SO IR HF Hit Hmn PK. destruct (order_ok seeded below py_float IR nh n m ratio bp gfile gh grecs hfile hh hrecs FO gen hgen) as (tr & te & PM & LT & GT & HT).
    refine (script_no_test FO HF tr te PM LT _ _ _ _ _ (fun v k => leaf_value (sk_n sk) (v k)) (fun v k => leaf_value (sk_n sk) (v k)) fround (prt (sk_n sk)) gen hgen GT HT _ Hmn). apply paillier_fit; [now apply script_legal|exact Hit|]. now rewrite guest_keys.
  Qed.
End Script.
Print Assumptions C66_no_test_plain.
Print Assumptions C66_no_test_paillier.
Print Assumptions C66_plain.
Print Assumptions C66_paillier.

(** *** Ids *)
Definition same_data (a b : record Qc) : Prop := numbers a = numbers b /\ r_label a = r_label b.
Lemma locs_map {A B} (f : A -> B) first l : locs first (map f l) = locs first l.
Proof. unfold locs, rtab. f_equal. change (map f l) with (f <$> l). now rewrite imap_fmap. Qed.
Lemma count_map {A B} (f : A -> B) l : dt_count (dt_new_unkeyed (map f l)) = dt_count (dt_new_unkeyed l).
Proof. unfold dt_count. rewrite !unkeyed_rtab. unfold rtab. cbn [dt_data]. now rewrite !imap_length, map_length. Qed.
Section Ids.
  Context {C E G R : Type} (seeded : Z -> G) (below : G -> nat -> nat * G) (py_float : text -> option Qc).
  Context (rnd : Qc -> Qc) (pred : loss_kind -> list Qc -> list Qc) (lossf : loss_kind -> dtable nat nat -> dtable nat (list Qc) -> Qc).
  Context (P : bparams) (bp : bin_params) (par : sparams) (depth stp nh fuel : nat).
  Context (recs recs' : list (record Qc)) (SD : Forall2 same_data recs recs').
  Lemma same_at p : same_data (rec_at recs p) (rec_at recs' p).
  Proof.
    unfold rec_at. destruct (recs !! p) as [r|] eqn:E1.
    - destruct (Forall2_lookup_l _ _ _ _ _ SD E1) as (r' & -> & H). exact H.
    - destruct (recs' !! p) as [r'|] eqn:E2; [|split; reflexivity]. destruct (Forall2_lookup_r _ _ _ _ _ SD E2) as (r & E3 & _). congruence.
  Qed.
  (** The ids, and the names of the columns of ids and labels, are read and then never used. *)
  Theorem C66_ids_guest (it : imp_type) draw (enc : nat -> dtable nat (Qc * Qc) -> res (dtable nat (C * C))) dec gdec (genc : nat -> nat -> nat -> Qc -> res E) threshold ratio gen (file file' : text) (h : list text) i y i' y' (c : option Qc -> proc nat (msg nat C E) R) :
    InputSpec.grid ((i :: y :: h) :: map with_label recs) -> InputSpec.stored ((i :: y :: h) :: map with_label recs) file -> Forall (denotes py_float) recs ->
    InputSpec.grid ((i' :: y' :: h) :: map with_label recs') -> InputSpec.stored ((i' :: y' :: h) :: map with_label recs') file' -> Forall (denotes py_float) recs' ->
    guest_script rnd pred lossf P bp par depth stp seeded below py_float nh fuel it draw enc dec gdec genc threshold file ratio gen c =
    guest_script rnd pred lossf P bp par depth stp seeded below py_float nh fuel it draw enc dec gdec genc threshold file' ratio gen c.
  Proof.
    intros GR ST NU GR' ST' NU'. unfold guest_script.
    rewrite (guest_tables_eq seeded below py_float _ file i y h recs ratio gen GR ST eq_refl NU), (guest_tables_eq seeded below py_float _ file' i' y' h recs' ratio gen GR' ST' eq_refl NU').
    rewrite <- (rec_at_all recs), <- (rec_at_all recs'), <- (Forall2_length _ _ _ SD), !data_split_map. destruct (data_split seeded below (seq 0 (length recs)) ratio true (Some 2%Z) gen) as [[[a b] g]|e]; [|reflexivity].
    cbn [mbind res_bind]. assert (HM : forall o, map inst_features (map guest_inst (map (rec_at recs) o)) = map inst_features (map guest_inst (map (rec_at recs') o))).
    { intros o. rewrite !map_map. apply map_ext. intros p. exact (proj1 (same_at p)). }
    assert (PL : forall o, place_labels recs o = place_labels recs' o). { intros o. unfold place_labels, rtab. f_equal. apply imap_ext. intros j p _. now rewrite (proj2 (same_at p)). }
    unfold clift, cbind. cbn [fst snd].
    rewrite !inst_labels_eq, !PL. cbn [mbind res_bind]. rewrite !inst_heap_eq, !HM, !inst_locs_eq.
    rewrite !locs_map, !count_map. reflexivity.
  Qed.
  Theorem C66_ids_host (Ops : numops C) sn draw ratio gen (file file' : text) (h : list text) i i' (c : unit -> proc unit (msg nat C E) R) :
    InputSpec.grid ((i :: h) :: map without_label recs) -> InputSpec.stored ((i :: h) :: map without_label recs) file -> Forall (denotes py_float) recs ->
    InputSpec.grid ((i' :: h) :: map without_label recs') -> InputSpec.stored ((i' :: h) :: map without_label recs') file' -> Forall (denotes py_float) recs' ->
    host_script P bp par depth stp seeded below py_float fuel Ops sn draw file ratio gen c = host_script P bp par depth stp seeded below py_float fuel Ops sn draw file' ratio gen c.
  Proof.
    intros GR ST NU GR' ST' NU'. unfold host_script.
    rewrite (host_tables_eq seeded below py_float _ file i h recs ratio gen GR ST eq_refl NU), (host_tables_eq seeded below py_float _ file' i' h recs' ratio gen GR' ST' eq_refl NU').
    rewrite <- (rec_at_all recs), <- (rec_at_all recs'), <- (Forall2_length _ _ _ SD), !data_split_map. destruct (data_split seeded below (seq 0 (length recs)) ratio true (Some 2%Z) gen) as [[[a b] g]|e]; [|reflexivity].
    cbn [mbind res_bind]. assert (HM : forall o, map inst_features (map host_inst (map (rec_at recs) o)) = map inst_features (map host_inst (map (rec_at recs') o))).
    { intros o. rewrite !map_map. apply map_ext. intros p. exact (proj1 (same_at p)). }
    unfold clift, cbind. cbn [fst snd]. rewrite !inst_heap_eq, !HM, !inst_locs_eq, !locs_map, !count_map. reflexivity.
  Qed.
End Ids.
Print Assumptions C66_ids_guest.
Print Assumptions C66_ids_host.

(** ** Example: six rows, four of them for training; the label is 1 where the host's number is large *)
Definition sex_float (t : text) : option Qc := zq <$> digit t.
Definition sex_below (g : nat) (n : nat) : nat * nat := (Nat.modulo g n, S g).
Definition sex_rec (i y v : Z) : record Qc := Rec [i] [y] [([v], zq (v - 48))].
Definition sex_grecs : list (record Qc) := [sex_rec 97 48 49; sex_rec 98 49 49; sex_rec 99 48 49; sex_rec 100 49 49; sex_rec 101 48 49; sex_rec 102 49 49].
Definition sex_hrecs : list (record Qc) := [sex_rec 97 48 49; sex_rec 98 48 57; sex_rec 99 48 49; sex_rec 100 48 56; sex_rec 101 48 49; sex_rec 102 48 57].
(** The same rows, b and c in the other order. *)
Definition sex_hrecs' : list (record Qc) := [sex_rec 97 48 49; sex_rec 99 48 49; sex_rec 98 48 57; sex_rec 100 48 56; sex_rec 101 48 49; sex_rec 102 48 57].
Definition sex_gfile : text := file_of [NL] (map line_of ([[105]; [121]; [120]] :: map with_label sex_grecs))%Z [].
Definition sex_hfile (recs : list (record Qc)) : text := file_of [NL] (map line_of ([[105]; [122]] :: map without_label recs))%Z [].
Definition sex_sys (recs : list (record Qc)) : sys (msg nat Qc Qc) (option Qc) unit :=
  scripts (fun _ => 1) sex_below sex_float (fun x => x) bex_pred bex_loss 1 ex_name IGain (bex_par 2 false) pex_bp pex_par 3 4 3 (fun _ _ => bex_draw) (fun _ _ _ => bex_draw) (Q2Qc (1 # 2)) (Q2Qc (2 # 3))
    sex_gfile (fun _ => sex_hfile recs) (fun _ => Ok) Ok Ok (fun _ _ _ x => Ok x) qops 7 (fun _ => 8).
Lemma sex_sheet (h : text) recs : length recs = 6 -> forallb (fun r => match r with Rec _ _ [([v], x)] => (48 <=? v)%Z && (v <=? 57)%Z && bool_decide (x = zq (v - 48)) | _ => false end) recs = true -> sheet sex_float 6 [h] recs.
Proof.
  intros L F. assert (X : forall r, r ∈ recs -> exists v, r_cells r = [([v], zq (v - 48))] /\ (48 <=? v)%Z && (v <=? 57)%Z = true).
  { intros r Hr. rewrite forallb_forall in F. apply elem_of_list_In in Hr. apply F in Hr. destruct r as [i y [|[[|v [|]] x] [|]]]; try discriminate. apply andb_prop in Hr as [H1 H2]. apply bool_decide_eq_true_1 in H2 as ->. exists v. auto. }
  split.
  - exact L.
  - apply Forall_forall. intros r Hr. destruct (X r Hr) as (v & -> & _). reflexivity.
  - apply Forall_forall. intros r Hr. destruct (X r Hr) as (v & E & B). unfold denotes. rewrite E. constructor; [|constructor]. unfold sex_float, digit. cbn [fst]. rewrite B. reflexivity.
  - apply NoDup_singleton.
  - split; [cbn; lia|cbn; lia].
Qed.
Lemma sex_files (recs : list (record Qc)) : recs = sex_hrecs \/ recs = sex_hrecs' ->
  files_ok sex_float pex_bp 1 6 4 (Q2Qc (2 # 3)) sex_gfile [[120%Z]] sex_grecs (fun _ => sex_hfile recs) (fun _ => [[122%Z]]) (fun _ => recs).
Proof.
  intros HR. split.
  - apply sex_sheet; [reflexivity|vm_compute; reflexivity].
  - exists [105%Z], [121%Z]. split; [apply grid_dec; vm_compute; reflexivity|]. apply (stored_full _ [NL]). now left.
  - intros i _. destruct HR as [-> | ->]; (apply sex_sheet; [reflexivity|vm_compute; reflexivity]).
  - intros i _. exists [105%Z]. split; [destruct HR as [-> | ->]; apply grid_dec; vm_compute; reflexivity|]. apply (stored_full _ [NL]). now left.
  - split; vm_compute; [discriminate|reflexivity].
  - split; [lia|]. split; [lia|]. vm_compute. discriminate.
  - split; [exact (proj1 (proj1 (proj2 C29_prepare_ex)))|]. split; [reflexivity|]. split; cbn; lia.
  - exists [[48%Z]; [49%Z]]. split; [cbn; lia|]. intros r Hr. unfold sex_grecs in Hr. repeat rewrite elem_of_cons in Hr. rewrite elem_of_nil in Hr. destruct Hr as [->|[->|[->|[->|[->|[->|[]]]]]]]; cbn; repeat rewrite elem_of_cons; tauto.
Qed.
Lemma sex_settings rnd : rnd_ok rnd -> settings_ok rnd bex_pred 1 ex_name (bex_par 2 false) pex_par 3 4 2 (fun _ _ => bex_draw) (fun _ _ _ => bex_draw).
Proof.
  intros RN. assert (DR : draws (fun _ => bex_draw)) by (exact (proj1 C49_ex)). destruct C65_ex as [_ _ _ _ _ A1 A2 A3 A4 A5 _ _ A6 _]. split; auto.
Qed.
(** The rounding of the floats is one that the theorems allow. *)
Lemma fround_rnd_ok : rnd_ok fround.
Proof.
  split; [exact fround_nonneg|]. intros x H. apply qabs_le in H as [A B]. apply qabs_le. assert (E : (- (1))%Qc = zq (-1)) by (apply Qc_is_canon; reflexivity). rewrite E in A |- *. change (1%Qc) with (zq 1) in B |- *.
  split; [rewrite <- (fround_zq (-1)) by (vm_compute; discriminate)|rewrite <- (fround_zq 1) by (vm_compute; discriminate)]; now apply fround_mono.
Qed.
(** The hypotheses of C66_plain and C66_paillier. *)
Example C66_ex : files_ok sex_float pex_bp 1 6 4 (Q2Qc (2 # 3)) sex_gfile [[120%Z]] sex_grecs (fun _ => sex_hfile sex_hrecs) (fun _ => [[122%Z]]) (fun _ => sex_hrecs) /\
  settings_ok fround bex_pred 1 ex_name (bex_par 2 false) pex_par 3 4 2 (fun _ _ => bex_draw) (fun _ _ _ => bex_draw) /\ in_range sex_below /\
  exists sk, boost_paillier_ok (seq 0 4) sk (fun _ _ => 1%Z) (fun _ _ => 1%Z) (fun _ _ _ => 1%Z) (reg_lambda pex_par) (min_impurity pex_par) 2.
Proof.
  split; [apply sex_files; now left|]. split; [apply sex_settings, fround_rnd_ok|]. split; [exact below_ok|].
  destruct bex_paillier as (sk & [A B C D E F G H]). exists sk. split; [exact A|exact B|exact C|exact D|exact E|exact F|exact G|]. vm_compute. discriminate.
Qed.
Definition sex_acc (recs : list (record Qc)) : Qc := match s_guest (run 1000 (sex_sys recs)).2 with Ret (Some a) => a | _ => zq 2 end.
Lemma sex_runs : nsteps step (run 1000 (sex_sys sex_hrecs)).1 (sex_sys sex_hrecs) (done (Some (sex_acc sex_hrecs)) [tt]) /\ nsteps step (run 1000 (sex_sys sex_hrecs')).1 (sex_sys sex_hrecs') (done (Some (sex_acc sex_hrecs')) [tt]).
Proof.
  split.
  - pose proof (run_ok 1000 (sex_sys sex_hrecs)) as R. assert (E : (run 1000 (sex_sys sex_hrecs)).2 = done (Some (sex_acc sex_hrecs)) [tt]) by (vm_compute; reflexivity). rewrite E in R. exact R.
  - pose proof (run_ok 1000 (sex_sys sex_hrecs')) as R. assert (E : (run 1000 (sex_sys sex_hrecs')).2 = done (Some (sex_acc sex_hrecs')) [tt]) by (vm_compute; reflexivity). rewrite E in R. exact R.
Qed.
(** The host's file with the same rows, each with its id, in two orders: the programs print 1 and 0. *)
Theorem C66_order_refuted : exists n m ratio gfile gh grecs hfile hfile' hh hrecs hrecs' (prog : text -> sys (msg nat Qc Qc) (option Qc) unit) N N' a a',
  files_ok sex_float pex_bp 1 n m ratio gfile gh grecs (fun _ => hfile) (fun _ => hh) (fun _ => hrecs) /\
  files_ok sex_float pex_bp 1 n m ratio gfile gh grecs (fun _ => hfile') (fun _ => hh) (fun _ => hrecs') /\
  settings_ok (fun x => x) bex_pred 1 ex_name (bex_par 2 false) pex_par 3 4 2 (fun _ _ => bex_draw) (fun _ _ _ => bex_draw) /\ in_range sex_below /\
  prog = (fun f => scripts (fun _ => 1) sex_below sex_float (fun x => x) bex_pred bex_loss 1 ex_name IGain (bex_par 2 false) pex_bp pex_par 3 4 3 (fun _ _ => bex_draw) (fun _ _ _ => bex_draw) (Q2Qc (1 # 2)) ratio
    gfile (fun _ => f) (fun _ => Ok) Ok Ok (fun _ _ _ x => Ok x) qops 7 (fun _ => 8)) /\
  Permutation hrecs hrecs' /\
  nsteps step N (prog hfile) (done (Some a) [tt]) /\ nsteps step N' (prog hfile') (done (Some a') [tt]) /\ a = zq 1 /\ a' = zq 0.
Proof.
  exists 6, 4, (Q2Qc (2 # 3)), sex_gfile, [[120%Z]], sex_grecs, (sex_hfile sex_hrecs), (sex_hfile sex_hrecs'), [[122%Z]], sex_hrecs, sex_hrecs'.
  exists (fun f => scripts (fun _ => 1) sex_below sex_float (fun x => x) bex_pred bex_loss 1 ex_name IGain (bex_par 2 false) pex_bp pex_par 3 4 3 (fun _ _ => bex_draw) (fun _ _ _ => bex_draw) (Q2Qc (1 # 2)) (Q2Qc (2 # 3))
    sex_gfile (fun _ => f) (fun _ => Ok) Ok Ok (fun _ _ _ x => Ok x) qops 7 (fun _ => 8)), (run 1000 (sex_sys sex_hrecs)).1, (run 1000 (sex_sys sex_hrecs')).1, (sex_acc sex_hrecs), (sex_acc sex_hrecs').
  split; [apply sex_files; now left|]. split; [apply sex_files; now right|]. split; [apply sex_settings; split; auto|]. split; [exact below_ok|]. split; [reflexivity|].
  split; [apply perm_skip, perm_swap|]. split; [exact (proj1 sex_runs)|]. split; [exact (proj2 sex_runs)|]. split; apply Qc_is_canon; vm_compute; reflexivity.
Qed.
Print Assumptions C66_order_refuted.
(** The hypotheses of C66_ids_guest and C66_ids_host: all ids replaced by one. *)
Example C66_ids_ex : Forall2 same_data sex_grecs (map (fun r => Rec [120%Z] (r_label r) (r_cells r)) sex_grecs) /\
  InputSpec.grid ([[105]; [121]; [120]]%Z :: map with_label (map (fun r => Rec [120%Z] (r_label r) (r_cells r)) sex_grecs)).
Proof. split; [repeat constructor|apply grid_dec; vm_compute; reflexivity]. Qed.
(** The hypotheses of the theorems on an empty test set. *)
Example C66_no_test_ex : files_ok sex_float pex_bp 1 6 6 (zq 1) sex_gfile [[120%Z]] sex_grecs (fun _ => sex_hfile sex_hrecs) (fun _ => [[122%Z]]) (fun _ => sex_hrecs).
Proof.
  destruct (sex_files sex_hrecs (or_introl eq_refl)) as [A B C D _ _ F G]. split; auto.
  - split; vm_compute; [discriminate|reflexivity].
  - split; [lia|]. split; [lia|]. vm_compute. discriminate.
Qed.
