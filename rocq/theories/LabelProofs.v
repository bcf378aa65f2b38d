(** Proofs about labels: ml/tree/hetero_secureboosting_tree_guest.py check_label and the classes that predict returns. *)
From Verif Require Export PredictSave BoostModel.
Local Open Scope nat_scope.

(** ** Specification *)
(** One string comes before another: at the first difference its character is smaller, or it ends there. *)
Definition str_before (a b : list N) : Prop :=
  (exists p x y a' b', a = p ++ x :: a' /\ b = p ++ y :: b' /\ (x < y)%N) \/ exists c s, b = a ++ c :: s.
Definition before (a b : label) : Prop :=
  match a, b with LInt x, LInt y => (x < y)%Z | LStr x, LStr y => str_before x y | _, _ => False end.
Definition is_int (l : label) : Prop := match l with LInt _ => True | LStr _ => False end.
(** Labels that can be compared with each other. *)
Definition alike (ls : list label) : Prop := (forall l, l ∈ ls -> is_int l) \/ (forall l, l ∈ ls -> ~ is_int l).
(** The rank of [l] among the distinct labels of a column. *)
Definition has_rank (column : list label) (l : label) (n : nat) : Prop :=
  exists smaller, NoDup smaller /\ length smaller = n /\ forall x, x ∈ smaller <-> x ∈ column /\ before x l.
Definition distinct (column ls : list label) : Prop := NoDup ls /\ forall x, x ∈ ls <-> x ∈ column.

(** ** Order *)
Lemma str_before_cons x y a b : str_before (x :: a) (y :: b) <-> (x < y)%N \/ x = y /\ str_before a b.
Proof.
  split.
  - intros [(p & u & v & a' & b' & E1 & E2 & L)|(c & s & E)].
    + destruct p as [|z p]; cbn in E1, E2; [injection E1 as -> ->; injection E2 as -> ->; now left|]. injection E1 as -> ->. injection E2 as -> ->. right. split; [reflexivity|]. left. do 5 eexists. eauto.
    + cbn in E. injection E as -> ->. right. split; [reflexivity|]. right. eauto.
  - intros [L|[-> [(p & u & v & a' & b' & -> & -> & L)|(c & s & ->)]]].
    + left. exists [], x, y, a, b. auto.
    + left. exists (y :: p), u, v, a', b'. auto.
    + right. exists c, s. reflexivity.
Qed.
Lemma str_before_nil_r a : ~ str_before a [].
Proof. intros [(p & u & v & a' & b' & _ & E & _)|(c & s & E)]; [destruct p|destruct a]; discriminate. Qed.
Lemma str_before_nil_l y b : str_before [] (y :: b).
Proof. right. exists y, b. reflexivity. Qed.
Lemma str_lt_spec a b : str_lt a b = true <-> str_before a b.
Proof.
  revert b; induction a as [|x a IH]; intros [|y b]; cbn [str_lt].
  - split; [discriminate|]. intros X. now apply str_before_nil_r in X.
  - split; [intros _; apply str_before_nil_l|reflexivity].
  - split; [discriminate|]. intros X. now apply str_before_nil_r in X.
  - rewrite str_before_cons. destruct (N.ltb_spec x y); [tauto|]. destruct (N.ltb_spec y x).
    + split; [discriminate|]. intros [X|[X _]]; lia.
    + rewrite IH. assert (x = y) by lia. intuition lia.
Qed.
Lemma str_irr a : ~ str_before a a.
Proof. induction a as [|x a IH]; [apply str_before_nil_r|]. rewrite str_before_cons. intros [X|[_ X]]; [lia|tauto]. Qed.
Lemma str_trans a b c : str_before a b -> str_before b c -> str_before a c.
Proof.
  revert b c; induction a as [|x a IH]; intros [|y b] [|z c] X Y; try (now apply str_before_nil_r in X); try (now apply str_before_nil_r in Y); [apply str_before_nil_l|].
  rewrite str_before_cons in *. destruct X as [X|[-> X]], Y as [Y|[-> Y]]; [left; lia|left; lia|left; lia|right; split; eauto].
Qed.
Lemma str_total a b : a <> b -> str_before a b \/ str_before b a.
Proof.
  revert b; induction a as [|x a IH]; intros [|y b] NE; [congruence|left; apply str_before_nil_l|right; apply str_before_nil_l|]. rewrite !str_before_cons.
  destruct (N.lt_trichotomy x y) as [L|[->|L]]; [tauto| |tauto]. destruct (IH b) as [X|X]; [congruence|tauto|tauto].
Qed.
Lemma before_irr a : ~ before a a.
Proof. destruct a; cbn; [lia|apply str_irr]. Qed.
Lemma before_trans a b c : before a b -> before b c -> before a c.
Proof. destruct a, b, c; cbn; try tauto; [lia|apply str_trans]. Qed.
Lemma before_total a b : (is_int a <-> is_int b) -> a <> b -> before a b \/ before b a.
Proof. destruct a, b; cbn; try tauto; intros _ NE; [assert (z <> z0) by congruence; lia|apply str_total; congruence]. Qed.
Lemma label_lt_ok a b : (is_int a <-> is_int b) -> exists t, label_lt a b = Ok t /\ (t = true <-> before a b).
Proof.
  destruct a, b; cbn; try tauto; intros _; eexists; (split; [reflexivity|]); [|apply str_lt_spec]. rewrite Z.ltb_lt. reflexivity.
Qed.
Lemma label_lt_mixed a b : ~ (is_int a <-> is_int b) -> label_lt a b = Err TypeError.
Proof. destruct a, b; cbn; tauto. Qed.

(** ** Sorting *)
Fixpoint increasing (l : list label) : Prop := match l with [] => True | x :: l' => (forall y, y ∈ l' -> before x y) /\ increasing l' end.

Lemma sort_insert_ok x l : (forall y, y ∈ l -> (is_int x <-> is_int y)) -> x ∉ l -> increasing l -> exists l', sort_insert x l = Ok l' /\ increasing l' /\ Permutation l' (x :: l).
Proof.
  induction l as [|y l IH]; intros A NI I; cbn [sort_insert]; [eexists; split; [reflexivity|]; cbn; split; [split; [|exact Logic.I]|reflexivity]; intros z Hz; now apply elem_of_nil in Hz|].
  destruct (label_lt_ok x y) as (t & Et & Ht); [apply A; left|]. rewrite Et. cbn [mbind res_bind]. destruct I as [I1 I2]. destruct t.
  - eexists. split; [reflexivity|]. split; [|reflexivity]. split; [|split; assumption]. intros z [->|Hz]%elem_of_cons; [tauto|]. apply before_trans with y; [tauto|auto].
  - destruct IH as (l' & El & Il & Pl); [intros z Hz; apply A; now right|intros X; apply NI; now right|exact I2|]. rewrite El. cbn [mbind res_bind]. eexists. split; [reflexivity|]. split.
    + split; [|exact Il]. intros z Hz. rewrite Pl in Hz. apply elem_of_cons in Hz as [->|Hz]; [|auto]. destruct (before_total x y) as [X|X]; [apply A; left|intros ->; apply NI; left| |exact X].
      apply Ht in X. discriminate.
    + rewrite Pl. constructor.
Qed.
Lemma sort_labels_ok l : alike l -> NoDup l -> exists l', sort_labels l = Ok l' /\ increasing l' /\ Permutation l' l.
Proof.
  intros A ND. unfold sort_labels.
  assert (X : forall m acc, increasing acc -> NoDup (m ++ acc) -> (forall x, x ∈ m ++ acc -> x ∈ l) ->
    exists l', foldM (fun acc x => sort_insert x acc) acc m = Ok l' /\ increasing l' /\ Permutation l' (m ++ acc)).
  { intros m. induction m as [|x m IH]; intros acc I N SUB; cbn [foldM]; [eexists; split; [reflexivity|]; auto|].
    cbn [app] in N, SUB. apply NoDup_cons in N as [Nx N].
    destruct (sort_insert_ok x acc) as (acc' & Ea & Ia & Pa); [|intros X; apply Nx, elem_of_app; now right|exact I|].
    { intros y Hy. assert (x ∈ l) by (apply SUB; left). assert (y ∈ l) by (apply SUB, elem_of_list_further, elem_of_app; now right). destruct A as [A|A]; specialize (A x) as A1; specialize (A y); tauto. }
    rewrite Ea. cbn [mbind res_bind]. assert (PM : Permutation (m ++ acc') (x :: m ++ acc)) by (rewrite Pa; symmetry; apply Permutation_middle).
    destruct (IH acc') as (l' & El & Il & Pl); [exact Ia|rewrite PM; now constructor|intros z Hz; apply SUB; now rewrite <- PM|]. exists l'. split; [exact El|]. split; [exact Il|]. now rewrite Pl. }
  destruct (X l []) as (l' & A' & B & D); [exact Logic.I|now rewrite app_nil_r|intros x; now rewrite app_nil_r|]. exists l'. rewrite app_nil_r in D. auto.
Qed.
Lemma sort_insert_mixed x y l : ~ (is_int x <-> is_int y) -> sort_insert x (y :: l) = Err TypeError.
Proof. intros M. cbn. now rewrite label_lt_mixed. Qed.
Lemma sort_labels_mixed l : ~ alike l -> sort_labels l = Err TypeError.
Proof.
  assert (X : forall m acc, (exists y r, acc = y :: r) -> (forall a b, a ∈ acc -> b ∈ acc -> (is_int a <-> is_int b)) -> (exists x y, x ∈ m /\ y ∈ acc /\ ~ (is_int x <-> is_int y)) ->
    foldM (fun acc x => sort_insert x acc) acc m = Err TypeError).
  { intros m. induction m as [|x m IH]; intros acc NE S (u & v & Hu & Hv & M); [now apply elem_of_nil in Hu|]. cbn [foldM]. destruct NE as (y & r & ->).
    assert (DX : is_int x \/ ~ is_int x) by (destruct x; cbn; tauto). assert (DY : is_int y \/ ~ is_int y) by (destruct y; cbn; tauto).
    assert (DM : (is_int x <-> is_int y) \/ ~ (is_int x <-> is_int y)) by tauto.
    destruct DM as [E|E]; [|now rewrite sort_insert_mixed].
    assert (EI : forall l, (forall z, z ∈ l -> (is_int x <-> is_int z)) -> exists l', sort_insert x l = Ok l' /\ Permutation l' (x :: l)).
    { clear. induction l as [|z l IH]; intros A; cbn [sort_insert]; [eauto|]. destruct (label_lt_ok x z) as (t & Et & _); [apply A; left|]. rewrite Et. cbn [mbind res_bind]. destruct t; [eauto|].
      destruct IH as (l' & El & Pl); [intros w Hw; apply A; now right|]. rewrite El. cbn [mbind res_bind]. eexists. split; [reflexivity|]. rewrite Pl. constructor. }
    destruct (EI (y :: r)) as (acc' & Ea & Pa). { intros z Hz. rewrite E. apply S; [left|exact Hz]. } rewrite Ea. cbn [mbind res_bind]. apply IH.
    - destruct acc' as [|a r']; [apply Permutation_length in Pa; discriminate|eauto].
    - assert (SX : forall a, a ∈ x :: y :: r -> (is_int a <-> is_int y)). { intros a [->|Ha]%elem_of_cons; [exact E|]. apply S; [exact Ha|left]. }
      intros a b Ha Hb. rewrite Pa in Ha, Hb. rewrite (SX a Ha), (SX b Hb). reflexivity.
    - apply elem_of_cons in Hu as [->|Hu]; [exfalso; apply M; rewrite E; apply S; [left|exact Hv]|]. exists u, v. split; [exact Hu|]. split; [rewrite Pa; now right|exact M]. }
  intros NA. destruct l as [|a l]; [exfalso; apply NA; left; intros x Hx; now apply elem_of_nil in Hx|]. unfold sort_labels. cbn [foldM sort_insert res_bind]. apply X.
  - eauto.
  - intros u v ->%elem_of_list_singleton ->%elem_of_list_singleton. reflexivity.
  - assert (Dec : (exists x, x ∈ l /\ ~ (is_int x <-> is_int a)) \/ forall x, x ∈ l -> (is_int x <-> is_int a)).
    { clear. induction l as [|x l IH]; [right; intros x Hx; now apply elem_of_nil in Hx|]. destruct IH as [(u & Hu & M)|A]; [left; exists u; split; [now right|exact M]|].
      assert (DM : (is_int x <-> is_int a) \/ ~ (is_int x <-> is_int a)) by (destruct x, a; cbn; tauto). destruct DM as [E|E]; [|left; exists x; split; [left|exact E]].
      right. intros u [->|Hu]%elem_of_cons; auto. }
    destruct Dec as [(x & Hx & M)|A]; [exists x, a; split; [exact Hx|split; [left|exact M]]|]. exfalso. apply NA. assert (DA : is_int a \/ ~ is_int a) by (destruct a; cbn; tauto).
    destruct DA as [DA|DA]; [left|right]; intros x [->|Hx]%elem_of_cons; try exact DA; specialize (A x Hx); tauto.
Qed.

(** ** The classes of a column *)
Lemma all_class_ok {K} (l : list (K * label)) (d : dict label bool) : NoDup d.*1 ->
  let d' := fold_left (fun d kv => dict_set kv.2 true d) l d in NoDup d'.*1 /\ forall x, x ∈ d'.*1 <-> x ∈ d.*1 \/ x ∈ map snd l.
Proof.
  revert d; induction l as [|kv l IH]; intros d ND; cbn [fold_left map]; [split; [exact ND|]; intros x; rewrite elem_of_nil; tauto|].
  destruct (IH (dict_set kv.2 true d)) as [A B]; [now apply dict_set_NoDup|]. split; [exact A|]. intros x. rewrite B, elem_of_cons.
  destruct (decide (kv.2 ∈ d.*1)) as [H|H].
  - rewrite dict_set_keys_mem by exact H. split; [tauto|]. intros [X|[->|X]]; tauto.
  - rewrite dict_set_fresh by exact H. rewrite fmap_app, elem_of_app. cbn. rewrite elem_of_list_singleton. tauto.
Qed.
Definition classes_in {K} (y : dtable K label) : list label := map fst (fold_left (fun d kv => dict_set kv.2 true d) (dt_data y) ([] : dict label bool)).
Lemma classes_in_ok {K} (y : dtable K label) : distinct (dt_values y) (classes_in y).
Proof.
  destruct (all_class_ok (dt_data y) [] (NoDup_nil_2)) as [A B]. split; [exact A|]. intros x. unfold classes_in. change (map fst ?d) with (fmap fst d). rewrite B. cbn. rewrite elem_of_nil. unfold dt_values. tauto.
Qed.
Lemma distinct_perm c a b : distinct c a -> distinct c b -> Permutation a b.
Proof. intros [A1 A2] [B1 B2]. apply NoDup_Permutation; auto. intros x. now rewrite A2, B2. Qed.
Lemma validate_y_eq {K} (y : dtable K label) : validate_y y = if MAX_CLASSNUM <? length (classes_in y) then Err ValueError else Ok (classes_in y).
Proof. unfold validate_y, classes_in. now rewrite map_length. Qed.

(** ** Ranks *)
Lemma increasing_lookup l i j a b : increasing l -> l !! i = Some a -> l !! j = Some b -> (i < j <-> before a b).
Proof.
  revert i j; induction l as [|x l IH]; intros i j I Hi Hj; [now rewrite lookup_nil in Hi|]. destruct I as [I1 I2].
  destruct i as [|i], j as [|j]; cbn in Hi, Hj.
  - assert (a = b) by congruence. subst b. pose proof (before_irr a). split; [lia|tauto].
  - injection Hi as ->. split; [intros _; apply I1; now apply elem_of_list_lookup_2 in Hj|lia].
  - injection Hj as ->. split; [lia|]. intros X. exfalso. apply (before_irr b). apply before_trans with a; [apply I1; now apply elem_of_list_lookup_2 in Hi|exact X].
  - rewrite <- (IH i j I2 Hi Hj). lia.
Qed.
Lemma increasing_rank column l i a : increasing l -> distinct column l -> l !! i = Some a -> has_rank column a i.
Proof.
  intros I [ND D] Ha. exists (take i l). split; [rewrite <- (take_drop i l) in ND; now apply NoDup_app in ND as [ND _]|]. split; [apply firstn_length_le, Nat.lt_le_incl; now apply lookup_lt_Some in Ha|].
  intros x. rewrite <- D. split.
  - intros Hx. apply elem_of_list_lookup in Hx as [j Hj]. apply lookup_take_Some in Hj as [Hj L]. split; [now apply elem_of_list_lookup_2 in Hj|]. exact (proj1 (increasing_lookup l j i x a I Hj Ha) L).
  - intros [Hx B]. apply elem_of_list_lookup in Hx as [j Hj]. apply elem_of_list_lookup. exists j. apply lookup_take_Some. split; [exact Hj|]. exact (proj2 (increasing_lookup l j i x a I Hj Ha) B).
Qed.
Lemma dict_get_combine (l : list label) n i a : NoDup l -> l !! i = Some a -> dict_get a (combine l (seq n (length l))) = Some (n + i).
Proof.
  revert n i; induction l as [|x l IH]; intros n i ND Ha; [now rewrite lookup_nil in Ha|]. apply NoDup_cons in ND as [Nx ND]. cbn [length seq combine dict_get]. destruct i as [|i]; cbn in Ha.
  - injection Ha as ->. rewrite decide_True by reflexivity. f_equal. lia.
  - rewrite decide_False by (intros ->; apply Nx; now apply elem_of_list_lookup_2 in Ha). rewrite (IH (S n) i ND Ha). f_equal. lia.
Qed.
Lemma range_zero l : range_from_zero true l = true -> forall x, x ∈ l -> x = LInt 0.
Proof.
  assert (F : forall l, range_from_zero false l = true -> l = []).
  { clear. induction l as [|[z|s] l IH]; cbn; [reflexivity| |]. - intros X. destruct (_ && _) eqn:E; [|discriminate]. apply andb_true_iff in E as [E1 E2]. lia. - intros X. specialize (IH X). subst. discriminate. }
  induction l as [|[z|s] l IH]; cbn; [intros _ x Hx; now apply elem_of_nil in Hx| |].
  - destruct (_ && _) eqn:E; [|discriminate]. intros X x [->|Hx]%elem_of_cons; [|auto]. apply andb_true_iff in E as [E1 E2]. f_equal. lia.
  - intros X. pose proof (F _ X). subst. discriminate.
Qed.

Section Check.
  Context {K : Type} `{EqDecision K}.
  Lemma check_label_ok (y : dtable K label) ls : dt_wf y -> distinct (dt_values y) ls -> alike ls -> length ls <= 1000 ->
    exists classes y', check_label y = Ok (classes, if 2 <? length ls then length ls else 1, if length ls =? 2 then Sigmoid else Softmax, y') /\
      increasing classes /\ distinct (dt_values y) classes /\ dt_wf y' /\ (forall k, k ∈ dt_keys y' <-> k ∈ dt_keys y) /\
      forall k n l, (k, n) ∈ dt_data y' -> (k, l) ∈ dt_data y -> n < length classes /\ classes !! n = Some l /\ has_rank (dt_values y) l n.
  Proof.
    intros W D A L. pose proof (classes_in_ok y) as CI. pose proof (distinct_perm _ _ _ CI D) as P. unfold check_label. rewrite validate_y_eq.
    assert (LE : length (classes_in y) = length ls) by now rewrite P. rewrite LE. unfold MAX_CLASSNUM. destruct (Nat.ltb_spec 1000 (length ls)); [lia|]. cbn [mbind res_bind]. cbv zeta. rewrite LE.
    destruct (sort_labels_ok (classes_in y)) as (classes & Ec & Ic & Pc); [|apply CI|].
    { destruct A as [A|A]; [left|right]; intros l Hl; apply A; now rewrite <- P. }
    rewrite Ec. cbn [mbind res_bind]. assert (DC : distinct (dt_values y) classes). { split; [rewrite Pc; apply CI|]. intros x. rewrite Pc. apply CI. }
    assert (LC : length classes = length ls) by (rewrite <- LE; now rewrite Pc).
    assert (Y : exists y', (if range_from_zero true (classes_in y) then dt_mapValues raw_label y else dt_mapValues (fun c => dict_index c (combine classes (seq 0 (length ls)))) y) = Ok y' /\
      dt_wf y' /\ dt_keys y' = dt_keys y /\ forall k, match tget y k, tget y' k with Some l, Some n => classes !! n = Some l | None, None => True | _, _ => False end).
    { destruct (range_from_zero true (classes_in y)) eqn:RZ.
      - apply (dt_mapValues_rel raw_label (fun _ l n => classes !! n = Some l) y W). intros k v Hv.
        assert (V : v ∈ classes_in y) by (apply CI, elem_of_list_In, in_map_iff; exists (k, v); split; [reflexivity|]; apply elem_of_list_In, tget_elem; assumption).
        pose proof (range_zero _ RZ v V) as ->. exists 0. split; [reflexivity|]. destruct classes as [|c r].
        + exfalso. rewrite <- Pc in V. now apply elem_of_nil in V.
        + cbn. f_equal. apply (range_zero _ RZ). rewrite <- Pc. left.
      - apply (dt_mapValues_rel _ (fun _ l n => classes !! n = Some l) y W). intros k v Hv.
        assert (V : v ∈ classes) by (apply DC, elem_of_list_In, in_map_iff; exists (k, v); split; [reflexivity|]; apply elem_of_list_In, tget_elem; assumption).
        apply elem_of_list_lookup in V as [i Hi]. exists i. split; [|exact Hi]. unfold dict_index. rewrite <- LC, (dict_get_combine classes 0 i v (proj1 DC) Hi). reflexivity. }
    destruct Y as (y' & Ey & Wy & Ky & GY). rewrite Ey. cbn [mbind res_bind]. exists classes, y'. split; [reflexivity|]. split; [exact Ic|]. split; [exact DC|]. split; [exact Wy|]. split; [intros k; now rewrite Ky|].
    intros k n l Hn Hl. apply tget_elem in Hn; [|exact Wy]. apply tget_elem in Hl; [|exact W]. specialize (GY k). rewrite Hn, Hl in GY. split; [now apply lookup_lt_Some in GY|]. split; [exact GY|]. now apply (increasing_rank _ classes).
  Qed.
  Lemma check_label_many (y : dtable K label) ls : distinct (dt_values y) ls -> 1000 < length ls -> check_label y = Err ValueError.
  Proof.
    intros D L. pose proof (distinct_perm _ _ _ (classes_in_ok y) D) as P. unfold check_label. rewrite validate_y_eq, P. unfold MAX_CLASSNUM. destruct (Nat.ltb_spec 1000 (length ls)); [reflexivity|lia].
  Qed.
  Lemma check_label_mixed (y : dtable K label) ls : distinct (dt_values y) ls -> length ls <= 1000 -> ~ alike ls -> check_label y = Err TypeError.
  Proof.
    intros D L A. pose proof (distinct_perm _ _ _ (classes_in_ok y) D) as P. unfold check_label. rewrite validate_y_eq, P. unfold MAX_CLASSNUM. destruct (Nat.ltb_spec 1000 (length ls)); [lia|]. cbn [mbind res_bind].
    rewrite sort_labels_mixed; [reflexivity|]. intros A'. apply A. destruct A' as [A'|A']; [left|right]; intros l Hl; apply A'; now rewrite P.
  Qed.
End Check.

(** ** Prediction *)
Lemma argmax_ok (l : list Qc) : l <> [] -> exists i x, argmax l = Ok i /\ l !! i = Some x /\ (forall j y, l !! j = Some y -> (y <= x)%Qc) /\ forall j y, j < i -> l !! j = Some y -> (y < x)%Qc.
Proof.
  assert (X : forall m pre best x, pre <> [] -> pre !! best = Some x -> (forall j y, pre !! j = Some y -> (y <= x)%Qc) -> (forall j y, j < best -> pre !! j = Some y -> (y < x)%Qc) ->
    exists x', (pre ++ m) !! argmax_from best x (length pre) m = Some x' /\ (forall j y, (pre ++ m) !! j = Some y -> (y <= x')%Qc) /\
      forall j y, j < argmax_from best x (length pre) m -> (pre ++ m) !! j = Some y -> (y < x')%Qc).
  { intros m. induction m as [|z m IH]; intros pre best x NE B LE LT; cbn [argmax_from]; [rewrite app_nil_r; eauto|].
    replace (pre ++ z :: m) with ((pre ++ [z]) ++ m) by (now rewrite <- app_assoc). assert (LP : length (pre ++ [z]) = S (length pre)) by (rewrite app_length; cbn; lia). rewrite <- LP.
    destruct (qltb x z) eqn:E.
    - apply qltb_true in E. apply IH; [now destruct pre|rewrite lookup_app_r, Nat.sub_diag by lia; reflexivity| |].
      + intros j y Hj. apply lookup_app_Some in Hj as [Hj|[Hl Hj]]; [specialize (LE j y Hj); qlra|]. destruct (j - length pre) eqn:Ej; cbn in Hj; [injection Hj as <-; qlra|discriminate Hj].
      + intros j y Hl Hj. rewrite lookup_app_l in Hj by exact Hl. specialize (LE j y Hj). qlra.
    - apply qltb_false in E. apply IH; [now destruct pre|now rewrite lookup_app_l by (now apply lookup_lt_Some in B)| |].
      + intros j y Hj. apply lookup_app_Some in Hj as [Hj|[Hl Hj]]; [now apply (LE j)|]. destruct (j - length pre) eqn:Ej; cbn in Hj; [injection Hj as <-; qlra|discriminate Hj].
      + intros j y Hl Hj. rewrite lookup_app_l in Hj by (apply lookup_lt_Some in B; lia). now apply (LT j). }
  destruct l as [|x l]; [congruence|]. intros _. destruct (X l [x] 0 x) as (x' & A & B & D); [discriminate|reflexivity|intros [|j] y Hj; cbn in Hj; [injection Hj as <-; qlra|discriminate Hj]|intros; lia|].
  cbn [app length] in *. cbn [argmax]. eexists _, x'. split; [reflexivity|]. auto.
Qed.
