(** The rows of two files in one table, and in two. *)
From Verif Require Export XgbProofs JoinMain.
From stdpp Require Import sorting.
From Verif Require Import P_Script P_Pipe P_Tree P_Boost P_Binning.
From Verif Require Import PipeSpec InputSpec.
Local Open Scope nat_scope.

(** *** The columns that a tree uses exist *)
Section Columns.
  Context {K : Type} (U : list K) (lam mi : Qc) (guest : party K) (hosts : list (party K)).
  Fixpoint columns_in (t : dtree) : Prop :=
    match t with
    | TLeaf _ _ _ => True
    | TSplit _ _ _ c _ l r => (exists p, owner guest hosts (ch_own c) = Some p /\ ch_fid c < length (p_nb p)) /\ columns_in l /\ columns_in r
    end.
  Lemma grow_columns vg vh eg eh rnd rt d : forall S G H t, grow U lam mi guest hosts vg vh eg eh rnd rt d S G H = Ok t -> columns_in t.
  Proof.
    induction d as [|d IH]; intros S G H t Eg; destruct (grow_inv _ _ _ _ _ _ _ _ _ _ _ _ _ _ _ _ Eg) as (w & o & Ew & Eo & Ht).
    - destruct Ht as [[-> _]|(d' & c & x & l & r & Ed & _)]; [exact Logic.I|discriminate].
    - destruct Ht as [[-> _]|(d' & c & x & l & r & Ed & -> & Hx & El & Er & ->)]; [exact Logic.I|]. injection Ed as <-. cbn [columns_in].
      destruct (best_choice _ _ _ _ _ _ _ _ _ _ _ _ _ _ _ _ Eo) as (p & Ho & Hfb & _). split; [exists p; split; [exact Ho|eapply cands_fid; eauto]|]. split; eapply IH; eauto.
  Qed.
  Lemma columns_with gv hv t : (fix col t := match t with TLeaf _ _ _ => True | TSplit _ _ _ c _ l r => (exists p, owner (with_valid guest gv) (hosts_with hosts hv) (ch_own c) = Some p /\ ch_fid c < length (p_nb p)) /\ col l /\ col r end) t -> columns_in t.
  Proof.
    induction t as [|w a b c gn l IHl r IHr]; [auto|]. cbn [columns_in]. intros ((p & Ho & Hf) & Cl & Cr). split; [|auto]. rewrite owner_with in Ho. destruct (owner guest hosts (ch_own c)) as [q|]; [|discriminate]. injection Ho as <-. exists q. auto.
  Qed.
End Columns.
Lemma pwalk_ext x y t : (forall own f, x own f = y own f) -> pwalk x t = pwalk y t.
Proof. intros E. induction t as [|own f v l IHl r IHr]; [reflexivity|]. cbn [pwalk]. now rewrite E, IHl, IHr. Qed.

(** *** Lists of classes in order are unique *)
Lemma classes_unique (l : list label) c1 c2 : distinct l c1 -> distinct l c2 ->
  (forall i j a b, c1 !! i = Some a -> c1 !! j = Some b -> (i < j <-> before a b)) -> (forall i j a b, c2 !! i = Some a -> c2 !! j = Some b -> (i < j <-> before a b)) -> c1 = c2.
Proof.
  intros D1 D2 O1 O2. set (R := fun a b => before a b /\ ~ before b a).
  assert (ST : forall c, (forall i j a b, c !! i = Some a -> c !! j = Some b -> (i < j <-> before a b)) -> StronglySorted R c).
  { clear. induction c as [|x c IH]; intros O; [constructor|]. constructor.
    - apply IH. intros i j a b Ha Hb. rewrite <- (O (S i) (S j) a b Ha Hb). lia.
    - apply Forall_lookup. intros i y Hy. split; [apply (O 0 (S i) x y eq_refl Hy); lia|]. intros Bx. apply (O (S i) 0 y x Hy eq_refl) in Bx. lia. }
  assert (AS : AntiSymm eq R) by (intros x y [_ A] [B _]; contradiction). apply (StronglySorted_unique R); [now apply ST|now apply ST|eapply distinct_perm; eauto].
Qed.

(** *** The stored numbers of a column *)
Lemma omap_imap {A B C} (f : nat -> A -> B) (g : B -> option C) (h : A -> option C) (l : list A) : (forall (i : nat) x, l !! i = Some x -> g (f i x) = h x) -> omap g (imap f l) = omap h l.
Proof.
  revert f. induction l as [|x l IH]; intros f E; [reflexivity|]. cbn. rewrite (E 0 x eq_refl). rewrite (IH (f ∘ S)); [reflexivity|]. intros i y Hy. exact (E (S i) y Hy).
Qed.
Lemma cells_train h a b f : cells (train_source h a b) f = omap (fun r => stored_entry (FDense r) f) a.
Proof.
  unfold cells. cbn [so_rows so_heap train_source]. unfold locs, rtab. cbn [dt_data]. apply omap_imap. intros i x Hx. cbn [snd Nat.add]. now rewrite (mem_train a b i x Hx).
Qed.
Lemma part_cells recs o f : omap (fun r => stored_entry (FDense r) f) (part recs o) = omap (fun pos => stored_entry (FDense (numbers (rec_at recs pos))) f) o.
Proof.
  unfold part. induction o as [|p o IH]; [reflexivity|]. cbn [map]. assert (X : forall A (g : A -> option Qc) x l, omap g (x :: l) = match g x with Some y => y :: omap g l | None => omap g l end) by reflexivity.
  rewrite !X, IH. reflexivity.
Qed.
Lemma omap_same {A B} (f g : A -> option B) (l : list A) : Forall (fun x => f x = g x) l -> omap f l = omap g l.
Proof. induction 1 as [|x l E _ IH]; [reflexivity|]. cbn. now rewrite E, IH. Qed.

Section Both.
  Context (n w : nat) (gh hh : list text) (grecs hrecs : list (record Qc)) (tr te : list nat).
  Context (LG : length grecs = n) (WG : forall g, g ∈ grecs -> length (r_cells g) = length gh) (PT : Forall (fun p => p < n) tr).
  Local Notation gs := (train_source gh (part grecs tr) (part grecs te)).
  Local Notation hs := (train_source hh (part hrecs tr) (part hrecs te)).
  Local Notation src := (train_source (gh ++ hh) (part (glue grecs hrecs) tr) (part (glue grecs hrecs) te)).
  Lemma glue_numbers pos : pos < n -> numbers (rec_at (glue grecs hrecs) pos) = numbers (rec_at grecs pos) ++ numbers (rec_at hrecs pos) /\ length (numbers (rec_at grecs pos)) = length gh.
  Proof.
    intros Hp. destruct (lookup_lt_is_Some_2 grecs pos) as [g Hg]; [lia|]. unfold rec_at at 1 2 4. rewrite glue_lookup, Hg. cbn [fmap option_fmap option_map]. unfold numbers. cbn [r_cells]. rewrite map_app, map_length.
    split; [reflexivity|]. apply WG. eapply elem_of_list_lookup_2; eauto.
  Qed.
  Lemma cells_left f : f < length gh -> cells src f = cells gs f.
  Proof.
    intros Hf. rewrite !cells_train, !part_cells. apply omap_same. eapply Forall_impl; [exact PT|]. intros pos Hp. destruct (glue_numbers pos Hp) as [-> L]. cbn [stored_entry]. now rewrite lookup_app_l by lia.
  Qed.
  Lemma cells_right f : cells src (length gh + f) = cells hs f.
  Proof.
    rewrite !cells_train, !part_cells. apply omap_same. eapply Forall_impl; [exact PT|]. intros pos Hp. destruct (glue_numbers pos Hp) as [-> L]. cbn [stored_entry]. rewrite lookup_app_r by lia. now replace (length gh + f - length (numbers (rec_at grecs pos))) with f by lia.
  Qed.
  Lemma count_same h recs : dt_count (so_rows (train_source h (part recs tr) (part recs te))) = length tr.
  Proof. unfold dt_count. cbn [so_rows train_source]. unfold locs, rtab. cbn [dt_data]. rewrite imap_length. unfold part. now rewrite map_length. Qed.
  Lemma keys_same h recs : dt_keys (so_rows (train_source h (part recs tr) (part recs te))) = seq 0 (length tr).
  Proof. cbn [so_rows train_source]. unfold locs. rewrite rtab_keys. unfold part. now rewrite map_length. Qed.

  (** The split points of the table with all columns are those of the two tables. *)
  Lemma points_both bp par gpts hpts pts (guest host me : party nat) : sees bp par gs gpts guest -> sees bp par hs hpts host -> sees bp par src pts me -> pts = gpts ++ hpts.
  Proof.
    intros (G1 & _ & G3 & _) (H1 & _ & H3 & _) (S1 & _ & S3 & _). cbn [so_header train_source] in G1, H1, S1. rewrite app_length in S1. rewrite !count_same in *.
    apply list_eq_same_length with (length gh + length hh); [rewrite app_length; lia|exact S1|]. intros f a b Hf Ha Hb. pose proof (S3 f a Ha) as Qa. destruct (decide (f < length gh)) as [Lf|Lf].
    - rewrite lookup_app_l in Hb by lia. pose proof (G3 f b Hb) as Qb. rewrite <- (cells_left f Lf) in Qb. congruence.
    - rewrite lookup_app_r in Hb by lia. pose proof (H3 _ b Hb) as Qb. rewrite <- cells_right in Qb. replace (length gh + (f - length gpts)) with f in Qb by lia. congruence.
  Qed.

  Lemma glue_at pos f : pos < n -> entry (glue grecs hrecs) pos f = beside (length gh) grecs hrecs pos f.
  Proof. intros Hp. apply glue_entry; [|lia]. intros g Hg. apply WG. eapply elem_of_list_lookup_2; eauto. Qed.
  Lemma value_left k f : f < length gh -> value src k f = value gs k f.
  Proof.
    intros Hf. rewrite !train_value, !part_value. destruct (tr !! k) as [pos|] eqn:Hk; [|reflexivity]. rewrite glue_at by (rewrite Forall_forall in PT; apply PT; eapply elem_of_list_lookup_2; eauto). unfold beside. now rewrite decide_True.
  Qed.
  Lemma value_right k f : value src k (length gh + f) = value hs k f.
  Proof.
    rewrite !train_value, !part_value. destruct (tr !! k) as [pos|] eqn:Hk; [|reflexivity]. rewrite glue_at by (rewrite Forall_forall in PT; apply PT; eapply elem_of_list_lookup_2; eauto). unfold beside. rewrite decide_False by lia. f_equal. lia.
  Qed.

  (** The two parties side by side see the table with all columns. *)
  Section Party.
    Context (bp : bin_params) (par : sparams) (gpts hpts pts : list (list Qc)) (guest host me0 : party nat).
    Context (SG : sees bp par gs gpts guest) (SH : sees bp par hs hpts host) (S0 : sees bp par src pts me0).
    Local Notation me := (with_valid (join_parties guest [host]) (repeat true (length pts))).
    Lemma widths : length (p_nb guest) = length gh /\ length (p_nb host) = length hh /\ length gpts = length gh /\ length hpts = length hh.
    Proof. destruct SG as (G1 & _ & _ & G4 & _), SH as (H1 & _ & _ & H4 & _). rewrite G4, H4, !map_length. auto. Qed.
    Lemma bins_both k f : k < length tr -> f < length gh + length hh -> bin_at [guest; host] k f = p_bin me0 k f.
    Proof.
      intros Hk Hf. destruct widths as (W1 & W2 & W3 & W4). pose proof (points_both bp par gpts hpts pts guest host me0 SG SH S0) as EP.
      destruct SG as (_ & _ & _ & _ & _ & _ & G7), SH as (_ & _ & _ & _ & _ & _ & H7), S0 as (_ & _ & _ & _ & _ & _ & S7). rewrite !keys_same in *.
      assert (KU : k ∈ seq 0 (length tr)) by (apply elem_of_seq; lia).
      assert (LP : f < length pts) by (rewrite EP, app_length; lia). destruct (lookup_lt_is_Some_2 pts f LP) as [p Hp]. apply (is_bin_unique p (value src k f)); [|now apply S7]. cbn [bin_at]. rewrite W1, W2. rewrite EP in Hp.
      destruct (Nat.ltb_spec f (length gh)) as [Lf|Lf].
      - rewrite value_left by exact Lf. apply G7; [exact KU|]. rewrite lookup_app_l in Hp by lia. exact Hp.
      - destruct (Nat.ltb_spec (f - length gh) (length hh)) as [Lh|Lh]; [|lia]. replace f with (length gh + (f - length gh)) at 1 by lia. rewrite value_right. apply H7; [exact KU|]. rewrite lookup_app_r in Hp by lia. now rewrite W3 in Hp.
    Qed.
    Lemma sees_both : sees bp par src pts me.
    Proof.
      pose proof bins_both as BB. pose proof (points_both bp par gpts hpts pts guest host me0 SG SH S0) as EP. destruct widths as (W1 & W2 & W3 & W4).
      destruct SG as (_ & _ & _ & G4 & G5 & G6 & _), SH as (_ & _ & _ & H4 & _ & _ & _), S0 as (S1 & S2 & S3 & S4 & S5 & S6 & S7).
      split; [exact S1|]. split; [exact S2|]. split; [exact S3|]. cbn [with_valid join_parties p_nb p_min_sample p_min_leaf p_bin map concat]. rewrite G4, H4, app_nil_r, <- map_app, <- EP. split; [reflexivity|]. split; [exact G5|]. split; [exact G6|].
      intros k f p Hk Hp. rewrite BB; [now apply S7| |].
      - rewrite keys_same in Hk. apply elem_of_seq in Hk. lia.
      - apply lookup_lt_Some in Hp. rewrite EP, app_length in Hp. lia.
    Qed.
    Lemma party_both depth stp : pts = pts_of bp par depth stp src -> party_ok (dt_keys (so_rows src)) (cfg bp par depth stp src) me0 -> party_ok (dt_keys (so_rows src)) (cfg bp par depth stp src) me.
    Proof.
      intros EPT [A1 A2 A3 A4 A5 A6 A7 A8 A9 A10 A11]. pose proof bins_both as BB. pose proof (points_both bp par gpts hpts pts guest host me0 SG SH S0) as EP. destruct widths as (W1 & W2 & W3 & W4).
      pose proof sees_both as (_ & _ & _ & B4 & B5 & B6 & _). destruct S0 as (S1 & _ & _ & S4 & S5 & S6 & _).
      assert (LC : length (c_points (cfg bp par depth stp src)) = length pts) by (rewrite EPT; reflexivity).
      split; auto.
      - intros k r f Hk Hf. rewrite <- (A4 k r f Hk Hf). cbn [with_valid join_parties p_bin]. apply BB.
        + assert (X : k ∈ dt_keys (so_rows src)) by (apply A2; change k with ((k, r).1); now apply elem_of_list_fmap_1). rewrite keys_same in X. apply elem_of_seq in X. lia.
        + rewrite LC, EP, app_length in Hf. lia.
      - rewrite <- A7, B4, S4. reflexivity.
      - cbn [with_valid p_valid]. rewrite EPT. reflexivity.
      - rewrite B5, <- A10, S5. reflexivity.
      - rewrite B6, <- A11, S6. reflexivity.
    Qed.
    Lemma overwritten_both h' : overwritten src me0 h' -> overwritten src me h'.
    Proof.
      intros (O1 & O2 & O3). split; [exact O1|]. split; [exact O2|]. intros k l Hk. destruct (O3 k l Hk) as (d & Hd & RO & V). exists d. split; [exact Hd|]. split; [exact RO|]. intros f. specialize (V f).
      destruct (dict_get f d) as [x|] eqn:Ed; [|exact V]. rewrite V. f_equal. cbn [with_valid join_parties p_bin]. f_equal. symmetry. apply bins_both.
      - assert (X : k ∈ dt_keys (so_rows src)) by (change k with ((k, l).1); now apply elem_of_list_fmap_1). rewrite keys_same in X. apply elem_of_seq in X. lia.
      - assert (X : f < length (so_header src)). { destruct RO as (_ & _ & RO). rewrite Forall_forall in RO. apply (RO (f, x)). now apply dict_get_elem in Ed. }
        cbn [so_header train_source] in X. rewrite app_length in X. exact X.
    Qed.
    (** A row walks the same way down a tree and down the same tree over the joined columns. *)
    Lemma walk_both (hp : nat -> list (list Qc)) t pos : hp 0 = hpts -> columns_in guest [host] t ->
      pwalk (entries grecs (fun _ => hrecs) pos) (cut (all_points gpts hp) t) = pwalk (fun _ => beside (length gh) grecs hrecs pos) (cut (all_points pts (fun _ => [])) (moved_tree [guest; host] t)).
    Proof.
      intros Eh. pose proof (points_both bp par gpts hpts pts guest host me0 SG SH S0) as EP. destruct widths as (W1 & W2 & W3 & W4).
      induction t as [wt0 a b|wt0 a b c gn l IHl r IHr]; [reflexivity|]. cbn [columns_in]. intros ((p & Ho & Hf) & Cl & Cr). cbn [moved_tree cut pwalk]. rewrite (IHl Cl), (IHr Cr). cbn [moved_choice ch_own ch_fid ch_bin all_points].
      destruct (ch_own c) as [i|]; cbn [owner] in Ho.
      - destruct i as [|i]; [|destruct i; discriminate Ho]. injection Ho as <-. cbn [position offset]. rewrite W1, Nat.add_0_r. replace (beside (length gh) grecs hrecs pos (length gh + ch_fid c)) with (entry hrecs pos (ch_fid c)) by (unfold beside; rewrite decide_False by lia; f_equal; lia).
        rewrite EP, lookup_app_r by lia. replace (length gh + ch_fid c - length gpts) with (ch_fid c) by lia. change (all_points gpts hp (Some 0)) with (hp 0). rewrite Eh. reflexivity.
      - injection Ho as <-. cbn [position offset Nat.add]. replace (beside (length gh) grecs hrecs pos (ch_fid c)) with (entry grecs pos (ch_fid c)) by (unfold beside; now rewrite decide_True by lia). rewrite EP, lookup_app_l by lia. reflexivity.
    Qed.
  End Party.
End Both.
