(** C84. *)
From Verif Require Import ColsModel DTableProofs QuantileTable.
From Coq Require Import Lia.
Local Open Scope nat_scope.

(** [i] is the first position of [c]. *)
Definition first_at {N} (header : list N) (c : N) (i : nat) : Prop := header !! i = Some c /\ forall j, j < i -> header !! j <> Some c.
(** An index of a table of [n] columns that is accepted. *)
Definition in_reach (n : nat) (x : cindex) : Prop := exists z, x = IxInt z /\ (- Z.of_nat n <= z < Z.of_nat n)%Z.
(** What is raised for another one. *)
Definition fault (catch : bool) (n : nat) (x : cindex) : exn :=
  match x with IxBad => ValueError | IxWrong => if catch then ValueError else TypeError | IxInt z => if (z <? 0)%Z then IndexError else ValueError end.

Lemma first_unique {N} (header : list N) c i j : first_at header c i -> first_at header c j -> i = j.
Proof. intros [A B] [C D]. destruct (Nat.lt_trichotomy i j) as [L|[L|L]]; [destruct (D i L A)|exact L|destruct (B j L C)]. Qed.
Section Cols.
Context {N : Type} `{EqDecision N}.
Implicit Types header : list N.
Lemma index_of_first header c : c ∈ header -> exists i, index_of c header = Some i /\ first_at header c i.
Proof.
  induction header as [|h header IH]; intros I; [exfalso; apply elem_of_nil in I; exact I|]. cbn [index_of]. destruct (decide (c = h)) as [->|NE].
  - exists 0. split; [reflexivity|]. split; [reflexivity|]. intros j Hj. lia.
  - apply elem_of_cons in I as [->|I]; [congruence|]. destruct (IH I) as (i & -> & A & B). exists (S i). split; [reflexivity|]. split; [exact A|]. intros [|j] Hj; cbn; [congruence|apply B; lia].
Qed.
Lemma py_index_ok header z : (- Z.of_nat (length header) <= z < Z.of_nat (length header))%Z -> exists c, py_index header z = Ok c /\ header !! Z.to_nat (z mod Z.of_nat (length header)) = Some c.
Proof.
  intros H. set (n := Z.of_nat (length header)) in *. assert (M : (z mod n = if (z <? 0) then z + n else z)%Z).
  { destruct (Z.ltb_spec z 0); [|apply Z.mod_small; lia]. symmetry. apply (Z.mod_unique _ _ (-1)); lia. }
  unfold py_index. fold n. rewrite <- M. assert (B : (0 <= z mod n < n)%Z) by (apply Z.mod_pos_bound; lia).
  destruct (Z.ltb_spec (z mod n) 0); [lia|]. destruct (Z.leb_spec n (z mod n)); [lia|]. cbn [orb]. destruct (lookup_lt_is_Some_2 header (Z.to_nat (z mod n))) as [c Hc]; [lia|]. exists c. unfold list_index. now rewrite Hc.
Qed.
Lemma choose_ok catch header x : in_reach (length header) x -> exists z c, x = IxInt z /\ choose_one catch header x = Ok c /\ header !! Z.to_nat (z mod Z.of_nat (length header)) = Some c.
Proof. intros (z & -> & H). destruct (py_index_ok header z H) as (c & A & B). exists z, c. split; [reflexivity|]. split; [|exact B]. cbn [choose_one]. destruct (Z.leb_spec (Z.of_nat (length header)) z); [lia|exact A]. Qed.
Lemma choose_fault catch header x : ~ in_reach (length header) x -> choose_one catch header x = Err (fault catch (length header) x).
Proof.
  intros H. destruct x as [z| |]; [|reflexivity..]. cbn [choose_one fault]. destruct (Z.leb_spec (Z.of_nat (length header)) z).
  - destruct (Z.ltb_spec z 0); [lia|reflexivity].
  - assert (z < - Z.of_nat (length header))%Z. { destruct (Z_lt_le_dec z (- Z.of_nat (length header))); [assumption|]. destruct H. exists z. split; [reflexivity|lia]. }
    unfold py_index. destruct (Z.ltb_spec z 0); [|lia]. destruct (Z.ltb_spec (z + Z.of_nat (length header)) 0); [reflexivity|lia].
Qed.
Lemma choose_all catch header idxs : Forall (in_reach (length header)) idxs ->
  exists cols, mapR (choose_one catch header) idxs = Ok cols /\ forall c, c ∈ cols <-> exists z, IxInt z ∈ idxs /\ header !! Z.to_nat (z mod Z.of_nat (length header)) = Some c.
Proof.
  intros F. induction F as [|x idxs R F (cols & E & IH)].
  - exists []. split; [reflexivity|]. intros c. split; [intros I; inversion I|intros (z & I & _); inversion I].
  - destruct (choose_ok catch header x R) as (z & c & -> & A & B). exists (c :: cols). cbn [mapR]. rewrite A, E. split; [reflexivity|]. intros c'. rewrite elem_of_cons, IH. split.
    + intros [->|(y & I & L)]; [exists z; split; [now left|exact B]|exists y; split; [now right|exact L]].
    + intros (y & I & L). apply elem_of_cons in I as [[= ->]|I]; [left; congruence|right; eauto].
Qed.
Lemma positions_get header cols : (forall c, c ∈ cols -> c ∈ header) -> forall c i, dict_get c (name_positions header cols) = Some i <-> c ∈ cols /\ first_at header c i.
Proof.
  unfold name_positions. induction cols as [|x cols IH] using rev_ind; intros S c i.
  - cbn. split; [discriminate|]. intros [I _]. inversion I.
  - rewrite fold_left_app. cbn [fold_left]. match goal with |- context [fold_left ?f cols []] => set (d := fold_left f cols []) in * end. destruct (index_of_first header x) as (k & -> & K); [apply S, elem_of_app; right; now left|].
    assert (IH' := IH (fun c I => S c (proj2 (elem_of_app _ _ _) (or_introl I))) c i). rewrite elem_of_app, elem_of_list_singleton. destruct (decide (c = x)) as [->|NE].
    + rewrite dict_get_set_eq. split; [intros [= <-]; auto|]. intros [_ Fi]. f_equal. exact (first_unique header x k i K Fi).
    + rewrite dict_get_set_ne by congruence. rewrite IH'. tauto.
Qed.
Lemma positions_NoDup header cols : NoDup (name_positions header cols).*1.
Proof.
  unfold name_positions. induction cols as [|x cols IH] using rev_ind; [apply NoDup_nil; exact I|]. rewrite fold_left_app. cbn [fold_left]. destruct (index_of x header); [now apply dict_set_NoDup|exact IH].
Qed.
Lemma choose_every catch header : mapR (choose_one catch header) (map (fun i => IxInt (Z.of_nat i)) (seq 0 (length header))) = Ok header.
Proof.
  assert (G : forall l k, drop k header = l -> mapR (choose_one catch header) (map (fun i => IxInt (Z.of_nat i)) (seq k (length l))) = Ok l).
  { induction l as [|c l IH]; intros k D; [reflexivity|]. assert (L : header !! k = Some c) by (rewrite <- (Nat.add_0_r k), <- lookup_drop, D; reflexivity).
    cbn [length seq map mapR]. assert (B := lookup_lt_Some _ _ _ L). assert (C : choose_one catch header (IxInt (Z.of_nat k)) = Ok c).
    { destruct (choose_ok catch header (IxInt (Z.of_nat k))) as (z & c' & [= <-] & A & E); [exists (Z.of_nat k); split; [reflexivity|lia]|].
      rewrite Z.mod_small, Nat2Z.id in E by lia. rewrite A. congruence. }
    rewrite C, IH; [reflexivity|]. rewrite (drop_S _ _ _ L) in D. congruence. }
  exact (G header 0 eq_refl).
Qed.
End Cols.

(** Indices from -n to n - 1: exactly the columns they name are chosen, negative ones counted from the end, each at the first position of its name. *)
Theorem C84_chosen {N} `{EqDecision N} catch (header : list N) idxs : Forall (in_reach (length header)) idxs ->
  exists d, choose_cols catch header idxs = Ok d /\ NoDup d.*1 /\
    forall c i, dict_get c d = Some i <-> first_at header c i /\ exists z, IxInt z ∈ idxs /\ header !! Z.to_nat (z mod Z.of_nat (length header)) = Some c.
Proof.
  intros F. destruct (choose_all catch header idxs F) as (cols & E & D). exists (name_positions header cols). unfold choose_cols. rewrite E. split; [reflexivity|]. split; [apply positions_NoDup|]. intros c i. rewrite positions_get; [rewrite D; tauto|].
  intros x I. apply D in I as (z & _ & L). exact (elem_of_list_lookup_2 _ _ _ L).
Qed.
Print Assumptions C84_chosen.
(** Otherwise the first index out of reach decides what is raised. *)
Theorem C84_rejected {N} `{EqDecision N} catch (header : list N) pre x post : Forall (in_reach (length header)) pre -> ~ in_reach (length header) x ->
  choose_cols catch header (pre ++ x :: post) = Err (fault catch (length header) x).
Proof.
  intros F NR. unfold choose_cols. assert (E : mapR (choose_one catch header) (pre ++ x :: post) = Err (fault catch (length header) x)); [|now rewrite E].
  induction F as [|y pre R F IH]; cbn [app mapR]; [now rewrite (choose_fault catch header x NR)|]. destruct (choose_ok catch header y R) as (z & c & -> & A & _). now rewrite A, IH.
Qed.
Print Assumptions C84_rejected.
(** With different names every index stands for its own column. *)
Theorem C84_distinct {N} `{EqDecision N} catch (header : list N) idxs : NoDup header -> Forall (in_reach (length header)) idxs ->
  exists d, choose_cols catch header idxs = Ok d /\ forall c i, dict_get c d = Some i <-> header !! i = Some c /\ exists z, IxInt z ∈ idxs /\ Z.of_nat i = (z mod Z.of_nat (length header))%Z.
Proof.
  intros ND F. destruct (C84_chosen catch header idxs F) as (d & E & _ & D). exists d. split; [exact E|]. intros c i. rewrite D. split.
  - intros [[A _] (z & I & L)]. split; [exact A|]. exists z. split; [exact I|]. rewrite (NoDup_lookup _ _ _ _ ND A L). rewrite Z2Nat.id; [reflexivity|]. apply Z.mod_pos_bound. apply lookup_lt_Some in A. lia.
  - intros [A (z & I & L)]. split; [split; [exact A|]|].
    + intros j Hj B. pose proof (NoDup_lookup _ _ _ _ ND A B). lia.
    + exists z. split; [exact I|]. now rewrite <- L, Nat2Z.id.
Qed.
Print Assumptions C84_distinct.
(** Listing every index is the same as asking for all columns with -1. *)
Theorem C84_all {N} `{EqDecision N} catch (header : list N) : choose_cols catch header (map (fun i => IxInt (Z.of_nat i)) (seq 0 (length header))) = Ok (init_cols header).
Proof. unfold choose_cols. now rewrite choose_every. Qed.
Print Assumptions C84_all.
(** With equal names the chosen column can be another one than the index says. *)
Theorem C84_position_refuted : exists (header : list nat) d, length header = 3 /\ choose_cols true header [IxInt 2] = Ok d /\ d = [(5, 0)] /\ header !! 2 = Some 5.
Proof. exists [5; 6; 5]. eexists. repeat split; reflexivity. Qed.
Print Assumptions C84_position_refuted.
(** That numbers below zero are rejected, as those above the last column are, is false: in a list, -1 chooses the last column. *)
Theorem C84_negative_refuted : exists (header : list nat) d, NoDup header /\ choose_cols true header [IxInt (-1)] = Ok d /\ d = [(7, 2)] /\ choose_cols true header [IxInt 3] = Err ValueError /\
  choose_cols true header [IxInt (-4)] = Err IndexError.
Proof. exists [5; 6; 7]. eexists. split; [apply (bool_decide_unpack _); reflexivity|]. repeat split; reflexivity. Qed.
Print Assumptions C84_negative_refuted.
(** Four columns, indices in any order with a repeated column. *)
Example C84_ex : Forall (in_reach 4) [IxInt 3; IxInt 0; IxInt (-1)] /\ choose_cols false [5; 6; 7; 8] [IxInt 3; IxInt 0; IxInt (-1)] = Ok [(8, 3); (5, 0)] /\
  ~ in_reach 4 IxWrong /\ choose_cols false [5; 6; 7; 8] [IxInt 1; IxWrong] = Err TypeError /\ choose_cols true [5; 6; 7; 8] [IxInt 1; IxWrong] = Err ValueError.
Proof.
  split; [repeat (apply Forall_cons; split; [eexists; split; [reflexivity|cbn; lia]|]); apply Forall_nil; exact I|]. split; [reflexivity|]. split; [intros (z & E & _); discriminate E|]. split; reflexivity.
Qed.
