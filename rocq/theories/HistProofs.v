(** Proofs about the histogram code. *)
From Verif Require Export HistSpec DTableSpec DTableProofs TableRel QcBase.
Local Open Scope nat_scope.

Lemma lupd_ok {A} (l : list A) i (f : A -> res A) x y : l !! i = Some x -> f x = Ok y -> lupd l i f = Ok (<[i := y]> l).
Proof. intros E F. unfold lupd. now rewrite E, F. Qed.

(** Nested updates. *)
Definition lens {A} (h : list (list (list A))) : list (list nat) := map (map length) h.

Lemma lupd2 {A} (l : list (list A)) i j (f : A -> res A) t t' r :
  l !! i = Some r -> r !! j = Some t -> f t = Ok t' ->
  exists l', lupd l i (fun r => lupd r j f) = Ok l' /\ l' = <[i := <[j := t']> r]> l.
Proof.
  intros E1 E2 F. eexists. split; [|reflexivity]. apply (lupd_ok _ _ _ r); [exact E1|]. now apply (lupd_ok _ _ _ t).
Qed.

Definition oget {A} (l : list (list A)) (i j : nat) : option A := match l !! i with Some r => r !! j | None => None end.

Lemma oget_upd {A} (l : list (list A)) i j (f : A -> res A) t t' :
  oget l i j = Some t -> f t = Ok t' ->
  exists l', lupd l i (fun r => lupd r j f) = Ok l' /\ map length l' = map length l /\
    forall i' j', oget l' i' j' = if decide (i' = i /\ j' = j) then Some t' else oget l i' j'.
Proof.
  unfold oget. intros E F. destruct (l !! i) as [r|] eqn:Ei; [|discriminate].
  destruct (lupd2 l i j f t t' r Ei E F) as (l' & -> & ->). eexists. split; [reflexivity|]. split.
  - change (map length (<[i := <[j := t']> r]> l)) with (length <$> <[i := <[j := t']> r]> l).
    rewrite list_fmap_insert, insert_length. apply list_insert_id. rewrite list_lookup_fmap, Ei. reflexivity.
  - intros i' j'. destruct (decide (i' = i)) as [->|Ni].
    + rewrite list_lookup_insert by (eapply lookup_lt_Some; exact Ei). rewrite Ei.
      destruct (decide (j' = j)) as [->|Nj].
      * rewrite list_lookup_insert by (eapply lookup_lt_Some; exact E). now rewrite decide_True by auto.
      * rewrite list_lookup_insert_ne by auto. now rewrite decide_False by tauto.
    + rewrite list_lookup_insert_ne by auto. now rewrite decide_False by tauto.
Qed.

Lemma hget_upd {C} (h : hist C) i j k (f : trip C -> res (trip C)) t t' :
  hget h i j k = Some t -> f t = Ok t' ->
  exists h', lupd h i (fun fh => lupd fh j (fun bh => lupd bh k f)) = Ok h' /\ lens h' = lens h /\
    forall i' j' k', hget h' i' j' k' = if decide (i' = i /\ j' = j /\ k' = k) then Some t' else hget h i' j' k'.
Proof.
  unfold hget. intros E F. destruct (h !! i) as [fh|] eqn:Ei; [|discriminate].
  destruct (fh !! j) as [bh|] eqn:Ej; [|discriminate].
  destruct (oget_upd fh j k f t t') as (fh' & U & LN & G); [unfold oget; now rewrite Ej|exact F|].
  eexists. split; [apply (lupd_ok _ _ _ fh _ Ei U)|]. split.
  - unfold lens. change (map (map length) (<[i := fh']> h)) with (map length <$> <[i := fh']> h).
    etransitivity; [exact (list_fmap_insert (map length) h i fh')|]. rewrite LN. apply list_insert_id. rewrite list_lookup_fmap, Ei. reflexivity.
  - intros i' j' k'. destruct (decide (i' = i)) as [->|Ni].
    + rewrite list_lookup_insert by (eapply lookup_lt_Some; exact Ei). rewrite Ei.
      specialize (G j' k'). unfold oget in G. rewrite G.
      destruct (decide (j' = j /\ k' = k)); [rewrite decide_True by tauto|rewrite decide_False by tauto]; reflexivity.
    + rewrite list_lookup_insert_ne by auto. now rewrite decide_False by tauto.
Qed.

(** Sums. *)
Lemma qsum_app a b : qsum (a ++ b) = (qsum a + qsum b)%Qc.
Proof. induction a; simpl; [rewrite zq_0; ring|]. rewrite IHa. ring. Qed.

Lemma qsum_perm a b : Permutation a b -> qsum a = qsum b.
Proof. induction 1; simpl; try congruence; ring. Qed.

Lemma sum_if_app {A} P f (a b : list A) : sum_if P f (a ++ b) = (sum_if P f a + sum_if P f b)%Qc.
Proof. unfold sum_if. rewrite List.filter_app, map_app. apply qsum_app. Qed.

Lemma count_if_app {A} P (a b : list A) : count_if P (a ++ b) = (count_if P a + count_if P b)%Z.
Proof. unfold count_if. rewrite List.filter_app, app_length. lia. Qed.

Lemma sum_if_nil {A} P f : sum_if P f (@nil A) = zq 0. Proof. reflexivity. Qed.
Lemma count_if_nil {A} P : count_if P (@nil A) = 0%Z. Proof. reflexivity. Qed.

Lemma sum_if_one {A} P f (x : A) : sum_if P f [x] = if P x then f x else zq 0.
Proof. unfold sum_if. simpl. destruct (P x); simpl; [rewrite zq_0; ring|reflexivity]. Qed.
Lemma count_if_one {A} (P : A -> bool) x : count_if P [x] = if P x then 1%Z else 0%Z.
Proof. unfold count_if. simpl. now destruct (P x). Qed.

Lemma sum_if_cons {A} P f (x : A) l : sum_if P f (x :: l) = ((if P x then f x else zq 0) + sum_if P f l)%Qc.
Proof. change (x :: l) with ([x] ++ l). now rewrite sum_if_app, sum_if_one. Qed.
Lemma count_if_cons {A} P (x : A) l : count_if P (x :: l) = ((if P x then 1 else 0) + count_if P l)%Z.
Proof. change (x :: l) with ([x] ++ l). now rewrite count_if_app, count_if_one. Qed.

Lemma sum_if_ext {A} (P Q : A -> bool) f l : (forall x, x ∈ l -> P x = Q x) -> sum_if P f l = sum_if Q f l.
Proof.
  induction l as [|x l IH]; intros E; [reflexivity|]. rewrite !sum_if_cons, IH, E; [reflexivity|constructor|].
  intros y Hy. apply E. now constructor.
Qed.
Lemma count_if_ext {A} (P Q : A -> bool) l : (forall x, x ∈ l -> P x = Q x) -> count_if P l = count_if Q l.
Proof.
  induction l as [|x l IH]; intros E; [reflexivity|]. rewrite !count_if_cons, IH, E; [reflexivity|constructor|].
  intros y Hy. apply E. now constructor.
Qed.

Lemma sum_if_split {A} (P Q R : A -> bool) f l : (forall x, x ∈ l -> P x = Q x || R x /\ Q x && R x = false) ->
  sum_if P f l = (sum_if Q f l + sum_if R f l)%Qc.
Proof.
  induction l as [|x l IH]; intros E; [rewrite !sum_if_nil, zq_0; ring|]. rewrite !sum_if_cons, IH.
  - destruct (E x) as [-> D]; [constructor|]. destruct (Q x), (R x); simpl in *; try discriminate; rewrite ?zq_0; ring.
  - intros y Hy. apply E. now constructor.
Qed.
Lemma count_if_split {A} (P Q R : A -> bool) l : (forall x, x ∈ l -> P x = Q x || R x /\ Q x && R x = false) ->
  count_if P l = (count_if Q l + count_if R l)%Z.
Proof.
  induction l as [|x l IH]; intros E; [reflexivity|]. rewrite !count_if_cons, IH.
  - destruct (E x) as [-> D]; [constructor|]. destruct (Q x), (R x); simpl in *; try discriminate; lia.
  - intros y Hy. apply E. now constructor.
Qed.
Lemma count_if_bound {A} (P : A -> bool) l : (0 <= count_if P l <= Z.of_nat (length l))%Z.
Proof. induction l as [|x l IH]; [unfold count_if; cbn; lia|]. rewrite count_if_cons. cbn [length]. destruct (P x); lia. Qed.
Lemma count_if_mono {A} (P Q : A -> bool) l : (forall x, x ∈ l -> P x = true -> Q x = true) -> (count_if P l <= count_if Q l)%Z.
Proof.
  induction l as [|x l IH]; intros E; [unfold count_if; cbn; lia|]. rewrite !count_if_cons.
  assert (count_if P l <= count_if Q l)%Z by (apply IH; intros y Hy; apply E; now constructor).
  specialize (E x ltac:(constructor)). destruct (P x), (Q x); try lia; discriminate (E eq_refl).
Qed.
Lemma sum_if_perm {A} P f (a b : list A) : Permutation a b -> sum_if P f a = sum_if P f b.
Proof.
  induction 1 as [|x a b _ IH|x y a|a b c _ IH1 _ IH2]; [reflexivity| | |congruence].
  - rewrite !sum_if_cons. congruence.
  - rewrite !sum_if_cons. ring.
Qed.
Lemma count_if_perm {A} P (a b : list A) : Permutation a b -> count_if P a = count_if P b.
Proof.
  induction 1 as [|x a b _ IH|x y a|a b c _ IH1 _ IH2]; [reflexivity| | |congruence].
  - rewrite !count_if_cons. congruence.
  - rewrite !count_if_cons. lia.
Qed.
Lemma sum_if_filter {A} (P Q : A -> bool) f l : sum_if P f (List.filter Q l) = sum_if (fun x => Q x && P x) f l.
Proof.
  induction l as [|x l IH]; [reflexivity|]. rewrite sum_if_cons. simpl. destruct (Q x); simpl.
  - now rewrite sum_if_cons, IH.
  - rewrite IH, zq_0. ring.
Qed.
Lemma count_if_filter {A} (P Q : A -> bool) l : count_if P (List.filter Q l) = count_if (fun x => Q x && P x) l.
Proof.
  induction l as [|x l IH]; [reflexivity|]. rewrite count_if_cons. simpl. destruct (Q x); simpl.
  - now rewrite count_if_cons, IH.
  - rewrite IH. lia.
Qed.
Lemma sum_if_map {A B} (P : B -> bool) f (g : A -> B) l : sum_if P f (map g l) = sum_if (fun x => P (g x)) (fun x => f (g x)) l.
Proof. induction l as [|x l IH]; [reflexivity|]. simpl. now rewrite !sum_if_cons, IH. Qed.
Lemma count_if_map {A B} (P : B -> bool) (g : A -> B) l : count_if P (map g l) = count_if (fun x => P (g x)) l.
Proof. induction l as [|x l IH]; [reflexivity|]. simpl. now rewrite !count_if_cons, IH. Qed.

Lemma combine_seq_at {X} (l : list X) n i x : l !! i = Some x -> combine (seq n (length l)) l !! i = Some (n + i, x).
Proof.
  revert n i. induction l as [|a l IH]; intros n [|i]; cbn; try discriminate.
  - intros [= ->]. now rewrite Nat.add_0_r.
  - intros H. etransitivity; [exact (IH (S n) i H)|]. do 2 f_equal. lia.
Qed.

Lemma elem_list_prod {X Y} (l : list X) (m : list Y) x y : (x, y) ∈ list_prod l m <-> x ∈ l /\ y ∈ m.
Proof. rewrite !elem_of_list_In. apply in_prod_iff. Qed.

Lemma NoDup_prod {X Y} (l : list X) (m : list Y) : NoDup l -> NoDup m -> NoDup (list_prod l m).
Proof.
  intros Hl Hm. induction Hl as [|x l Hx Hl IH]; cbn; [constructor|]. apply NoDup_app. split; [|split; [|exact IH]].
  - change (map (pair x) m) with (pair x <$> m). apply NoDup_fmap_2; [congruence|exact Hm].
  - intros [a b] H1 H2. apply elem_of_list_In, in_map_iff in H1 as (b' & [= <- <-] & _).
    apply elem_list_prod in H2 as [H2 _]. contradiction.
Qed.

Section hist.
Context {C : Type} (O : numops C) (rep : C -> Z -> Qc -> Prop) (NL : numlaws O rep).

(** A triple built from L leaves standing for (a, b, c). *)
Definition trep (t : trip C) (L : Z) (a b : Qc) (c : Z) : Prop := rep (tg t) L a /\ rep (th t) L b /\ tc t = c.

Lemma trep0 : trep (trip0 O) 0 (zq 0) (zq 0) 0.
Proof. repeat split; apply (nl_zero _ _ NL). Qed.

Lemma bump_ok t L a b c g h vg vh : trep t L a b c -> rep g 1 vg -> rep h 1 vh ->
  exists t', bump O g h t = Ok t' /\ trep t' (L + 1) (a + vg) (b + vh) (c + 1).
Proof.
  intros (R1 & R2 & R3) Rg Rh. unfold bump.
  destruct (nl_add _ _ NL _ _ _ _ _ _ R1 Rg) as (x & -> & Rx), (nl_add _ _ NL _ _ _ _ _ _ R2 Rh) as (y & -> & Ry).
  cbn. eexists. split; [reflexivity|]. repeat split; cbn; auto. lia.
Qed.

Lemma trip_add_ok t1 t2 L1 L2 a1 a2 b1 b2 c1 c2 : trep t1 L1 a1 b1 c1 -> trep t2 L2 a2 b2 c2 ->
  exists t', trip_add O t1 t2 = Ok t' /\ trep t' (L1 + L2) (a1 + a2) (b1 + b2) (c1 + c2).
Proof.
  intros (R1 & R2 & R3) (S1 & S2 & S3). unfold trip_add.
  destruct (nl_add _ _ NL _ _ _ _ _ _ R1 S1) as (x & -> & Rx), (nl_add _ _ NL _ _ _ _ _ _ R2 S2) as (y & -> & Ry).
  cbn. eexists. split; [reflexivity|]. repeat split; cbn; auto. lia.
Qed.

Lemma trip_sub_ok t1 t2 L1 L2 a1 a2 b1 b2 c1 c2 : trep t1 L1 a1 b1 c1 -> trep t2 L2 a2 b2 c2 ->
  exists t', trip_sub O t1 t2 = Ok t' /\ trep t' (L1 + L2) (a1 - a2) (b1 - b2) (c1 - c2).
Proof.
  intros (R1 & R2 & R3) (S1 & S2 & S3). unfold trip_sub.
  destruct (nl_sub _ _ NL _ _ _ _ _ _ R1 S1) as (x & -> & Rx), (nl_sub _ _ NL _ _ _ _ _ _ R2 S2) as (y & -> & Ry).
  cbn. eexists. split; [reflexivity|]. repeat split; cbn; auto. lia.
Qed.

Section batch.
Context {A : Type} (vg vh : A -> Qc).
Context (points : list (list Qc)) (zero_bins : dict nat nat) (valid : option (list bool)) (node_map : dict nat nat).
Notation row := (A * hrow C)%type.
Notation N := (length node_map).
Notation F := (length points).

Definition on (fid : nat) : Prop := match valid with None => True | Some v => v !! fid = Some true end.
Hypothesis Hvalid : match valid with None => True | Some v => length v = F end.
Hypothesis Hzero : forall fid p, points !! fid = Some p -> exists z, dict_get fid zero_bins = Some z /\ z <= length p.

Lemma masked_on fid : fid < F -> exists m, masked valid fid = Ok m /\ (m = false <-> on fid).
Proof.
  intros H. unfold masked, on. destruct valid as [v|]; [|exists false; tauto].
  unfold list_index. destruct (lookup_lt_is_Some_2 v fid) as [b E]; [lia|]. rewrite E. cbn.
  exists (negb b). split; [reflexivity|]. destruct b; cbn; split; congruence.
Qed.

(** Predicates on rows. *)
Definition at_node (nid : nat) (r : row) : bool := bool_decide (dict_get (hr_node r.2) node_map = Some nid).
Definition stored (nid fid : nat) (r : row) : bool := at_node nid r && dict_mem fid (hr_bins r.2).
Definition stored_at (nid fid b : nat) (r : row) : bool := at_node nid r && bool_decide (dict_get fid (hr_bins r.2) = Some b).

Definition trep_if (t : trip C) (P : row -> bool) (l : list row) : Prop :=
  trep t (count_if P l) (sum_if P (fun r => vg r.1) l) (sum_if P (fun r => vh r.1) l) (count_if P l).

Record hinv (st : @hstate C) (h0 : hist C) (l : list row) : Prop := {
  hi_lens : lens (hs_hist st) = lens h0;
  hi_sum : forall nid, nid < N -> exists t, hs_sum st !! nid = Some t /\ trep_if t (at_node nid) l;
  hi_opt : forall nid fid, nid < N -> fid < F -> on fid -> exists t, oget (hs_opt st) nid fid = Some t /\ trep_if t (stored nid fid) l;
  hi_hist : forall nid fid p b, nid < N -> points !! fid = Some p -> on fid -> b <= length p ->
     exists t, hget (hs_hist st) nid fid b = Some t /\ trep_if t (stored_at nid fid b) l
}.

Lemma trep_if_same t P l x : P x = false -> trep_if t P l -> trep_if t P (l ++ [x]).
Proof.
  intros E. unfold trep_if. rewrite !sum_if_app, !count_if_app, !sum_if_one, !count_if_one, E, zq_0.
  intros (R1 & R2 & R3). split; [|split]; [| |lia];
  [replace (count_if P l + 0)%Z with (count_if P l) by lia; match goal with |- rep _ _ (?s + 0)%Qc => replace (s + 0)%Qc with s by ring end; assumption..].
Qed.

Lemma trep_if_bump t P l x : P x = true -> trep_if t P l -> rep (hr_g x.2) 1 (vg x.1) -> rep (hr_h x.2) 1 (vh x.1) ->
  exists t', bump O (hr_g x.2) (hr_h x.2) t = Ok t' /\ trep_if t' P (l ++ [x]).
Proof.
  intros E T Rg Rh. destruct (bump_ok _ _ _ _ _ _ _ _ _ T Rg Rh) as (t' & B & T'). exists t'. split; [exact B|].
  unfold trep_if. rewrite !sum_if_app, !count_if_app, !sum_if_one, !count_if_one, E. exact T'.
Qed.

Lemma trep_if_last t P l x y : P x = P y -> x.1 = y.1 -> trep_if t P (l ++ [x]) -> trep_if t P (l ++ [y]).
Proof.
  intros E1 E2. unfold trep_if. now rewrite !sum_if_app, !count_if_app, !sum_if_one, !count_if_one, E1, E2.
Qed.

(** A row cut down to some of its stored features. *)
Definition cut (r : row) (d : dict nat nat) : row := (r.1, HRow d (hr_state r.2) (hr_node r.2) (hr_g r.2) (hr_h r.2)).

Lemma dict_get_app {V} (d1 d2 : dict nat V) k :
  dict_get k (d1 ++ d2) = match dict_get k d1 with Some v => Some v | None => dict_get k d2 end.
Proof.
  induction d1 as [|[k' v] d1 IH]; simpl; [reflexivity|]. destruct (decide (k = k')); [reflexivity|exact IH].
Qed.

Definition row_fine (r : row) : Prop :=
  NoDup (hr_bins r.2).*1 /\ rep (hr_g r.2) 1 (vg r.1) /\ rep (hr_h r.2) 1 (vh r.1) /\
  forall fid b, dict_get fid (hr_bins r.2) = Some b -> exists p, points !! fid = Some p /\ b <= length p.

Lemma feature_step_ok st h0 l r nid d1 fid b :
  dict_get (hr_node r.2) node_map = Some nid -> nid < N ->
  rep (hr_g r.2) 1 (vg r.1) -> rep (hr_h r.2) 1 (vh r.1) ->
  dict_get fid d1 = None -> (exists p, points !! fid = Some p /\ b <= length p) ->
  hinv st h0 (l ++ [cut r d1]) ->
  exists st', feature_step O valid nid (hr_g r.2) (hr_h r.2) st (fid, b) = Ok st' /\ hinv st' h0 (l ++ [cut r (d1 ++ [(fid, b)])]).
Proof.
  intros Hn Hnid Rg Rh Hd (p & Hp & Hb) [I0 I1 I2 I3].
  assert (HF : fid < F) by (eapply lookup_lt_Some; exact Hp).
  assert (AT : forall i d, at_node i (cut r d) = bool_decide (Some nid = Some i)) by (intros; unfold at_node; cbn; now rewrite Hn).
  assert (MEM : forall f, f <> fid -> dict_get f (d1 ++ [(fid, b)]) = dict_get f d1).
  { intros f Nf. rewrite dict_get_app. destruct (dict_get f d1); [reflexivity|]. cbn. now rewrite decide_False. }
  assert (MEMf : dict_get fid (d1 ++ [(fid, b)]) = Some b).
  { rewrite dict_get_app, Hd. cbn. now rewrite decide_True. }
  assert (SAME : forall i f, (f <> fid \/ i <> nid) -> stored i f (cut r d1) = stored i f (cut r (d1 ++ [(fid, b)]))).
  { intros i f Hor. unfold stored. rewrite !AT. destruct (decide (i = nid)) as [->|Ni].
    - destruct Hor as [Nf|?]; [|congruence]. cbn [cut hr_bins snd]. unfold dict_mem. now rewrite MEM.
    - rewrite !bool_decide_false by congruence. reflexivity. }
  assert (SAMEat : forall i f k, (f <> fid \/ i <> nid \/ k <> b) -> stored_at i f k (cut r d1) = stored_at i f k (cut r (d1 ++ [(fid, b)]))).
  { intros i f k Hor. unfold stored_at. rewrite !AT. destruct (decide (i = nid)) as [->|Ni].
    - f_equal. cbn [cut hr_bins snd]. destruct (decide (f = fid)) as [->|Nf]; [|now rewrite MEM].
      rewrite Hd, MEMf, !bool_decide_false; [reflexivity|intros [= ->]; tauto|congruence].
    - rewrite !bool_decide_false by congruence. reflexivity. }
  destruct (masked_on fid HF) as (m & Em & Hm). unfold feature_step. cbn [fst snd]. rewrite Em. cbn [mbind res_bind].
  destruct m.
  - exists st. split; [reflexivity|]. assert (OFF : ~ on fid) by (intros ?; destruct Hm as [_ Hm]; specialize (Hm ltac:(assumption)); discriminate).
    constructor.
    + exact I0.
    + intros i Hi. destruct (I1 i Hi) as (t & E & T). exists t. split; [exact E|].
      eapply trep_if_last; [| |exact T]; [now rewrite !AT|reflexivity].
    + intros i f Hi Hf Hon. destruct (I2 i f Hi Hf Hon) as (t & E & T). exists t. split; [exact E|].
      eapply trep_if_last; [| |exact T]; [|reflexivity]. apply SAME. left. congruence.
    + intros i f p' k Hi Hf Hon Hk. destruct (I3 i f p' k Hi Hf Hon Hk) as (t & E & T). exists t. split; [exact E|].
      eapply trep_if_last; [| |exact T]; [|reflexivity]. apply SAMEat. left. congruence.
  - assert (Hon : on fid) by (apply Hm; reflexivity).
    destruct (I3 nid fid p b Hnid Hp Hon Hb) as (t & E & T).
    destruct (bump_ok _ _ _ _ _ _ _ _ _ T Rg Rh) as (t' & B & T').
    destruct (hget_upd (hs_hist st) nid fid b _ t t' E B) as (h' & U & LN & G). rewrite U. cbn [mbind res_bind].
    destruct (I2 nid fid Hnid HF Hon) as (o & Eo & To).
    destruct (bump_ok _ _ _ _ _ _ _ _ _ To Rg Rh) as (o' & Bo & To').
    destruct (oget_upd (hs_opt st) nid fid _ o o' Eo Bo) as (op' & Uo & _ & Go). rewrite Uo. cbn [mbind res_bind].
    eexists. split; [reflexivity|]. constructor; cbn [hs_sum hs_opt hs_hist].
    + congruence.
    + intros i Hi. destruct (I1 i Hi) as (s & Es & Ts). exists s. split; [exact Es|].
      eapply trep_if_last; [| |exact Ts]; [now rewrite !AT|reflexivity].
    + intros i f Hi Hf Hon'. rewrite Go. destruct (decide (i = nid /\ f = fid)) as [[-> ->]|Ne].
      * exists o'. split; [reflexivity|]. revert To'. unfold trep_if.
        rewrite !sum_if_app, !count_if_app, !sum_if_one, !count_if_one.
        assert (stored nid fid (cut r d1) = false) as -> by (unfold stored, dict_mem; cbn [cut hr_bins snd]; rewrite Hd; apply andb_false_r).
        assert (stored nid fid (cut r (d1 ++ [(fid, b)])) = true) as ->
          by (unfold stored, dict_mem; cbn [cut hr_bins snd]; rewrite MEMf, AT, bool_decide_true by reflexivity; reflexivity).
        cbn [cut fst]. rewrite zq_0, !Qcplus_0_r, Z.add_0_r. auto.
      * destruct (I2 i f Hi Hf Hon') as (s & Es & Ts). exists s. split; [exact Es|].
        eapply trep_if_last; [| |exact Ts]; [|reflexivity]. apply SAME. lia.
    + intros i f p' k Hi Hf Hon' Hk. rewrite G. destruct (decide (i = nid /\ f = fid /\ k = b)) as [(-> & -> & ->)|Ne].
      * exists t'. split; [reflexivity|]. revert T'. unfold trep_if.
        rewrite !sum_if_app, !count_if_app, !sum_if_one, !count_if_one.
        assert (stored_at nid fid b (cut r d1) = false) as ->
          by (unfold stored_at; cbn [cut hr_bins snd]; rewrite Hd, (bool_decide_false (None = _)) by congruence; apply andb_false_r).
        assert (stored_at nid fid b (cut r (d1 ++ [(fid, b)])) = true) as ->
          by (unfold stored_at; cbn [cut hr_bins snd]; rewrite MEMf, AT, !bool_decide_true by reflexivity; reflexivity).
        cbn [cut fst]. rewrite zq_0, !Qcplus_0_r, Z.add_0_r. auto.
      * destruct (I3 i f p' k Hi Hf Hon' Hk) as (s & Es & Ts). exists s. split; [exact Es|].
        eapply trep_if_last; [| |exact Ts]; [|reflexivity]. apply SAMEat. lia.
Qed.

Lemma features_ok h0 l r nid : dict_get (hr_node r.2) node_map = Some nid -> nid < N ->
  rep (hr_g r.2) 1 (vg r.1) -> rep (hr_h r.2) 1 (vh r.1) ->
  forall d2 d1 st, NoDup (d1 ++ d2).*1 ->
  (forall fid b, (fid, b) ∈ d2 -> exists p, points !! fid = Some p /\ b <= length p) ->
  hinv st h0 (l ++ [cut r d1]) ->
  exists st', foldM (feature_step O valid nid (hr_g r.2) (hr_h r.2)) st d2 = Ok st' /\ hinv st' h0 (l ++ [cut r (d1 ++ d2)]).
Proof.
  intros Hn Hnid Rg Rh. induction d2 as [|[fid b] d2 IH]; intros d1 st ND HB I; cbn [foldM].
  - exists st. rewrite app_nil_r. auto.
  - destruct (feature_step_ok st h0 l r nid d1 fid b Hn Hnid Rg Rh) as (st' & E & I'); [| |exact I|].
    + apply dict_get_None. rewrite fmap_app in ND. apply NoDup_app in ND as (_ & D & _). intros Hin. apply (D _ Hin).
      cbn. constructor.
    + apply HB. constructor.
    + rewrite E. destruct (IH (d1 ++ [(fid, b)]) st') as (st2 & E2 & I2).
      * rewrite <- app_assoc. exact ND.
      * intros f k Hin. apply HB. now constructor.
      * exact I'.
      * exists st2. rewrite <- app_assoc in I2. auto.
Qed.

Lemma row_step_ok st h0 l r nid : dict_get (hr_node r.2) node_map = Some nid -> nid < N -> row_fine r ->
  hinv st h0 l -> exists st', row_step O valid node_map st r.2 = Ok st' /\ hinv st' h0 (l ++ [r]).
Proof.
  intros Hn Hnid (ND & Rg & Rh & HB) [I0 I1 I2 I3]. unfold row_step. rewrite Hn.
  destruct (I1 nid Hnid) as (t & E & T). destruct (bump_ok _ _ _ _ _ _ _ _ _ T Rg Rh) as (t' & B & T').
  rewrite (lupd_ok _ _ _ _ _ E B). cbn [mbind res_bind].
  assert (RE : r = cut r (hr_bins r.2)) by (destruct r as [a [? ? ? ? ?]]; reflexivity).
  assert (I' : hinv (HS (<[nid := t']> (hs_sum st)) (hs_opt st) (hs_hist st)) h0 (l ++ [cut r []])).
  { constructor; cbn [hs_sum hs_opt hs_hist].
    - exact I0.
    - intros i Hi. destruct (decide (i = nid)) as [->|Ni].
      + exists t'. rewrite list_lookup_insert by (eapply lookup_lt_Some; exact E). split; [reflexivity|].
        unfold trep_if. rewrite !sum_if_app, !count_if_app, !sum_if_one, !count_if_one.
        assert (at_node nid (cut r []) = true) as -> by (unfold at_node; cbn; rewrite Hn; now apply bool_decide_true).
        exact T'.
      + rewrite list_lookup_insert_ne by auto. destruct (I1 i Hi) as (s & Es & Ts). exists s. split; [exact Es|].
        apply trep_if_same; [|exact Ts]. unfold at_node. cbn. rewrite Hn. apply bool_decide_false. congruence.
    - intros i f Hi Hf Hon. destruct (I2 i f Hi Hf Hon) as (s & Es & Ts). exists s. split; [exact Es|].
      apply trep_if_same; [|exact Ts]. unfold stored. cbn. apply andb_false_r.
    - intros i f p k Hi Hf Hon Hk. destruct (I3 i f p k Hi Hf Hon Hk) as (s & Es & Ts). exists s. split; [exact Es|].
      apply trep_if_same; [|exact Ts]. unfold stored_at. cbn. apply andb_false_r. }
  destruct (features_ok h0 l r nid Hn Hnid Rg Rh (hr_bins r.2) [] (HS (<[nid := t']> (hs_sum st)) (hs_opt st) (hs_hist st)) ND) as (st' & E' & IF); [|exact I'|].
  - intros fid b Hin. apply HB. apply dict_get_nodup; [exact ND|exact Hin].
  - exists st'. split; [exact E'|]. cbn [app] in IF. rewrite <- RE in IF. exact IF.
Qed.

Lemma rows_ok h0 : forall l2 l1 st,
  Forall row_fine l2 -> Forall (fun r => exists nid, dict_get (hr_node r.2) node_map = Some nid /\ nid < N) l2 ->
  hinv st h0 l1 ->
  exists st', foldM (row_step O valid node_map) st (map snd l2) = Ok st' /\ hinv st' h0 (l1 ++ l2).
Proof.
  induction l2 as [|r l2 IH]; intros l1 st FF FN I; cbn [map foldM].
  - exists st. rewrite app_nil_r. auto.
  - inversion FF as [|? ? F1 F2]; subst. inversion FN as [|? ? (nid & Hn & Hl) F4]; subst.
    destruct (row_step_ok st h0 l1 r nid Hn Hl F1 I) as (st' & E & I'). rewrite E.
    destruct (IH (l1 ++ [r]) st' F2 F4 I') as (st2 & E2 & I2). exists st2. rewrite <- app_assoc in I2. auto.
Qed.

(** Shapes. *)
Definition good_shape (h : hist C) : Prop :=
  length h = N /\ forall nid fh, h !! nid = Some fh -> length fh = F /\
    forall fid p bh, points !! fid = Some p -> fh !! fid = Some bh ->
      (on fid -> length bh = S (length p)) /\ (~ on fid -> bh = []).

Lemma lens_lookup {X} (h h' : list (list (list X))) nid fh' : lens h' = lens h -> h' !! nid = Some fh' ->
  exists fh, h !! nid = Some fh /\ length fh' = length fh /\
    forall fid bh', fh' !! fid = Some bh' -> exists bh, fh !! fid = Some bh /\ length bh' = length bh.
Proof.
  intros E H. assert (E2 : lens h' !! nid = lens h !! nid) by now rewrite E. unfold lens in E2.
  change (map (map length) h') with (map length <$> h') in E2. change (map (map length) h) with (map length <$> h) in E2.
  rewrite !list_lookup_fmap, H in E2. destruct (h !! nid) as [fh|]; cbn in E2; [|discriminate].
  injection E2 as E3. exists fh. split; [reflexivity|]. split.
  - apply (f_equal length) in E3. now rewrite !map_length in E3.
  - intros fid bh' Hb. assert (E4 : map length fh' !! fid = map length fh !! fid) by now rewrite E3.
    change (map length fh') with (length <$> fh') in E4. change (map length fh) with (length <$> fh) in E4.
    rewrite !list_lookup_fmap, Hb in E4. destruct (fh !! fid) as [bh|]; cbn in E4; [|discriminate].
    injection E4 as E5. exists bh. auto.
Qed.

Lemma good_shape_lens h h' : lens h' = lens h -> good_shape h -> good_shape h'.
Proof.
  intros E [H1 H2]. split.
  - apply (f_equal length) in E. unfold lens in E. rewrite !map_length in E. congruence.
  - intros nid fh' Hn. destruct (lens_lookup _ _ _ _ E Hn) as (fh & Hf & L1 & L2).
    destruct (H2 nid fh Hf) as [H3 H4]. split; [congruence|].
    intros fid p bh' Hp Hb. destruct (L2 _ _ Hb) as (bh & Hb' & L3). destruct (H4 fid p bh Hp Hb') as [A1 A2].
    split; [intros; rewrite L3; auto|]. intros. apply nil_length_inv. rewrite L3, A2 by assumption. reflexivity.
Qed.

Lemma new_hist_ok : exists h0, new_hist O points valid N = Ok h0 /\ good_shape h0 /\
  hinv (HS (replicate N (trip0 O)) (replicate N (replicate F (trip0 O))) h0) h0 [].
Proof.
  unfold new_hist.
  destruct (mapR_rel (fun fs : nat * list Qc => m ← masked valid fs.1; if (m : bool) then Ok [] else Ok (replicate (length fs.2 + 1) (trip0 O)))
    (fun fs bh => (on fs.1 -> bh = replicate (length fs.2 + 1) (trip0 O)) /\ (~ on fs.1 -> bh = []))
    (combine (seq 0 F) points)) as (tm & E & R).
  { intros [fid p] Hin. cbn [fst snd]. apply elem_of_list_In, in_combine_l, in_seq in Hin.
    destruct (masked_on fid) as (m & Em & Hm); [lia|]. rewrite Em. cbn [mbind res_bind]. destruct m.
    - eexists. split; [reflexivity|]. split; [|reflexivity]. intros Ho. apply Hm in Ho. discriminate.
    - eexists. split; [reflexivity|]. split; [reflexivity|]. intros Ho. destruct Ho. now apply Hm. }
  rewrite E. cbn [mbind res_bind]. exists (replicate N tm). split; [reflexivity|].
  assert (LT : length tm = F).
  { rewrite <- (Forall2_length _ _ _ R), combine_length, seq_length. lia. }
  assert (TM : forall fid p bh, points !! fid = Some p -> tm !! fid = Some bh ->
     (on fid -> bh = replicate (length p + 1) (trip0 O)) /\ (~ on fid -> bh = [])).
  { intros fid p bh Hp Hb. destruct (Forall2_lookup_r _ _ _ _ _ R Hb) as ([i q] & Hc & Hq).
    assert (Hc' : combine (seq 0 F) points !! fid = Some (fid, p)) by (exact (combine_seq_at points 0 fid p Hp)).
    rewrite Hc in Hc'. injection Hc' as -> ->. exact Hq. }
  split.
  - split; [apply replicate_length|]. intros nid fh Hn. apply lookup_replicate in Hn as [-> _]. split; [exact LT|].
    intros fid p bh Hp Hb. destruct (TM fid p bh Hp Hb) as [T1 T2]. split; [|exact T2].
    intros Ho. rewrite (T1 Ho), replicate_length. lia.
  - constructor; cbn [hs_sum hs_opt hs_hist].
    + reflexivity.
    + intros nid Hn. exists (trip0 O). rewrite lookup_replicate_2 by exact Hn. split; [reflexivity|apply trep0].
    + intros nid fid Hn Hf _. exists (trip0 O). unfold oget. rewrite !lookup_replicate_2 by assumption.
      split; [reflexivity|apply trep0].
    + intros nid fid p b Hn Hp Ho Hb. exists (trip0 O). unfold hget. rewrite lookup_replicate_2 by assumption.
      destruct (lookup_lt_is_Some_2 tm fid) as [bh E1]; [rewrite LT; eapply lookup_lt_Some; exact Hp|].
      rewrite E1. destruct (TM fid p bh Hp E1) as [T1 _]. rewrite (T1 Ho), lookup_replicate_2 by lia.
      split; [reflexivity|apply trep0].
Qed.

(** The zero-bin pass. *)
Section zero.
Context (v : list bool) (Hv : valid = Some v) (st : @hstate C) (l : list row).

Definition zval (done : list (nat * nat)) (nid fid b : nat) : bool :=
  bool_decide ((nid, fid) ∈ done) && bool_decide (dict_get fid zero_bins = Some b).

Definition zrep (t : trip C) (z : bool) (nid fid b : nat) : Prop :=
  trep t (count_if (stored_at nid fid b) l + if z then count_if (at_node nid) l + count_if (stored nid fid) l else 0)
    (sum_if (stored_at nid fid b) (fun r => vg r.1) l +
       if z then sum_if (at_node nid) (fun r => vg r.1) l - sum_if (stored nid fid) (fun r => vg r.1) l else zq 0)
    (sum_if (stored_at nid fid b) (fun r => vh r.1) l +
       if z then sum_if (at_node nid) (fun r => vh r.1) l - sum_if (stored nid fid) (fun r => vh r.1) l else zq 0)
    (count_if (stored_at nid fid b) l + if z then count_if (at_node nid) l - count_if (stored nid fid) l else 0).

Definition zinv (h h0 : hist C) (done : list (nat * nat)) : Prop :=
  lens h = lens h0 /\ forall nid fid p b, nid < N -> points !! fid = Some p -> on fid -> b <= length p ->
     exists t, hget h nid fid b = Some t /\ zrep t (zval done nid fid b) nid fid b.

Lemma zinv_init h0 : hinv st h0 l -> zinv (hs_hist st) h0 [].
Proof.
  intros [I0 _ _ I3]. split; [exact I0|]. intros nid fid p b Hn Hp Ho Hb. destruct (I3 _ _ _ _ Hn Hp Ho Hb) as (t & E & T).
  exists t. split; [exact E|]. unfold zval. rewrite bool_decide_false by (intros H; inversion H). cbn [andb].
  unfold zrep. rewrite zq_0, !Qcplus_0_r, !Z.add_0_r. exact T.
Qed.

Lemma zero_step_ok h h0 done nid fid : hinv st h0 l -> nid < N -> fid < F -> (nid, fid) ∉ done -> zinv h h0 done ->
  exists h', zero_step O valid zero_bins st h (nid, fid) = Ok h' /\ zinv h' h0 (done ++ [(nid, fid)]).
Proof.
  intros [_ I1 I2 _] Hn Hf Hd [L Z]. unfold zero_step. rewrite Hv. cbn [fst snd]. unfold list_index.
  pose proof Hvalid as LV. rewrite Hv in LV.
  assert (KEEP : forall i f b, (i, f) <> (nid, fid) -> zval (done ++ [(nid, fid)]) i f b = zval done i f b).
  { intros i f b Ne. unfold zval. f_equal. apply bool_decide_ext. rewrite elem_of_app, elem_of_list_singleton. tauto. }
  destruct (lookup_lt_is_Some_2 v fid) as [o E]; [lia|]. rewrite E. cbn [mbind res_bind]. destruct o; cbn [negb].
  - assert (Hon : on fid) by (unfold on; rewrite Hv; exact E).
    destruct (lookup_lt_is_Some_2 points fid Hf) as [p Hp]. destruct (Hzero fid p Hp) as (z & Hz & Hzl).
    unfold dict_index. rewrite Hz. cbn [mbind res_bind].
    destruct (I1 nid Hn) as (s & Es & Ts). rewrite Es. cbn [mbind res_bind].
    destruct (I2 nid fid Hn Hf Hon) as (o & Eo & To). unfold oget in Eo.
    destruct (hs_opt st !! nid) as [ol|] eqn:Eol; [|discriminate]. cbn [mbind res_bind]. rewrite Eo. cbn [mbind res_bind].
    destruct (trip_sub_ok _ _ _ _ _ _ _ _ _ _ Ts To) as (r & -> & Tr). cbn [mbind res_bind].
    destruct (Z nid fid p z Hn Hp Hon Hzl) as (t & Et & Tt).
    assert (zval done nid fid z = false) as Ez by (unfold zval; rewrite (bool_decide_false (_ ∈ _)) by exact Hd; reflexivity).
    rewrite Ez in Tt. unfold zrep in Tt. rewrite zq_0, !Qcplus_0_r, !Z.add_0_r in Tt.
    destruct (trip_add_ok _ _ _ _ _ _ _ _ _ _ Tt Tr) as (t' & Ta & Tt').
    destruct (hget_upd h nid fid z (fun t => trip_add O t r) t t' Et Ta) as (h' & U & LN & G). exists h'.
    split; [exact U|]. split; [congruence|]. intros i f p' b Hi Hp' Ho Hb. rewrite G.
    destruct (decide (i = nid /\ f = fid /\ b = z)) as [(-> & -> & ->)|Ne].
    + exists t'. split; [reflexivity|]. unfold zval.
      rewrite !bool_decide_true; [exact Tt'|exact Hz|rewrite elem_of_app, elem_of_list_singleton; tauto].
    + destruct (Z i f p' b Hi Hp' Ho Hb) as (u & Eu & Tu). exists u. split; [exact Eu|].
      destruct (decide ((i, f) = (nid, fid))) as [[= -> ->]|Nif]; [|now rewrite KEEP].
      assert (dict_get fid zero_bins <> Some b) by (rewrite Hz; intros [= ->]; apply Ne; auto).
      revert Tu. unfold zval. rewrite (bool_decide_false (dict_get fid zero_bins = Some b)) by assumption. now rewrite !andb_false_r.
  - exists h. split; [reflexivity|]. split; [exact L|]. intros i f p b Hi Hp Ho Hb.
    rewrite KEEP; [now apply Z with p|]. intros [= -> ->]. unfold on in Ho. rewrite Hv, E in Ho. discriminate.
Qed.

Lemma zero_loop_ok h0 : hinv st h0 l -> forall todo done h, NoDup (done ++ todo) ->
  (forall nid fid, (nid, fid) ∈ todo -> nid < N /\ fid < F) -> zinv h h0 done ->
  exists h', foldM (zero_step O valid zero_bins st) h todo = Ok h' /\ zinv h' h0 (done ++ todo).
Proof.
  intros I. induction todo as [|[nid fid] todo IH]; intros done h ND B Z; cbn [foldM].
  - exists h. rewrite app_nil_r. auto.
  - destruct (B nid fid) as [B1 B2]; [constructor|]. 
    destruct (zero_step_ok h h0 done nid fid I B1 B2) as (h' & E & Z'); [|exact Z|].
    + apply NoDup_app in ND as (_ & D & _). intros Hin. apply (D _ Hin). constructor.
    + rewrite E. destruct (IH (done ++ [(nid, fid)]) h') as (h2 & E2 & Z2).
      * now rewrite <- app_assoc.
      * intros i f Hin. apply B. now constructor.
      * exact Z'.
      * exists h2. rewrite <- app_assoc in Z2. auto.
Qed.
End zero.

(** Rows of the node [nid] whose bin of [fid] is [b], counting absent features in the zero bin. *)
Definition in_bin (nid fid b : nat) (r : row) : bool := at_node nid r && (bin_of zero_bins fid (hr_bins r.2) =? b).

Lemma zrep_in_bin t nid fid p b (l : list row) : points !! fid = Some p ->
  zrep l t (bool_decide (dict_get fid zero_bins = Some b)) nid fid b ->
  trep t (count_if (in_bin nid fid b) l + if bool_decide (dict_get fid zero_bins = Some b) then 2 * count_if (stored nid fid) l else 0) (sum_if (in_bin nid fid b) (fun r => vg r.1) l)
    (sum_if (in_bin nid fid b) (fun r => vh r.1) l) (count_if (in_bin nid fid b) l).
Proof.
  intros Hp. destruct (Hzero fid p Hp) as (z & Hz & _). rewrite Hz. destruct (decide (z = b)) as [->|Nb].
  - rewrite bool_decide_true by reflexivity. unfold zrep. intros T.
    set (un := fun r : row => at_node nid r && negb (dict_mem fid (hr_bins r.2))).
    assert (S1 : forall f, sum_if (at_node nid) f l = (sum_if (stored nid fid) f l + sum_if un f l)%Qc).
    { intros f. apply sum_if_split. intros x _. unfold stored, un. destruct (at_node nid x), (dict_mem fid (hr_bins x.2)); auto. }
    assert (S2 : count_if (at_node nid) l = (count_if (stored nid fid) l + count_if un l)%Z).
    { apply count_if_split. intros x _. unfold stored, un. destruct (at_node nid x), (dict_mem fid (hr_bins x.2)); auto. }
    assert (X : forall x : row, in_bin nid fid b x = stored_at nid fid b x || un x /\ stored_at nid fid b x && un x = false).
    { intros x. unfold in_bin, stored_at, un, bin_of, dict_mem. rewrite Hz.
      destruct (at_node nid x); cbn [andb]; [|auto]. destruct (dict_get fid (hr_bins x.2)) as [c|].
      - cbn [negb]. rewrite orb_false_r, andb_false_r. split; [|reflexivity].
        destruct (Nat.eqb_spec c b) as [->|Nc]; [now rewrite bool_decide_true|rewrite bool_decide_false; congruence].
      - rewrite Nat.eqb_refl. cbn [negb]. rewrite orb_true_r, bool_decide_false by congruence. auto. }
    assert (S3 : forall f, sum_if (in_bin nid fid b) f l = (sum_if (stored_at nid fid b) f l + sum_if un f l)%Qc)
      by (intros f; apply sum_if_split; auto).
    assert (S4 : count_if (in_bin nid fid b) l = (count_if (stored_at nid fid b) l + count_if un l)%Z) by (apply count_if_split; auto).
    rewrite S4, !S3. rewrite S2, !S1 in T. destruct T as (T1 & T2 & T3). split; [|split].
    + match type of T1 with rep _ ?L ?a => match goal with |- rep _ ?L' ?a' => replace L' with L by lia; replace a' with a by ring end end. exact T1.
    + match type of T2 with rep _ ?L ?a => match goal with |- rep _ ?L' ?a' => replace L' with L by lia; replace a' with a by ring end end. exact T2.
    + lia.
  - rewrite bool_decide_false by congruence. unfold zrep. rewrite zq_0, !Qcplus_0_r, !Z.add_0_r. intros T.
    assert (X : forall x : row, x ∈ l -> in_bin nid fid b x = stored_at nid fid b x).
    { intros x _. unfold in_bin, stored_at, bin_of. rewrite Hz. f_equal. destruct (dict_get fid (hr_bins x.2)) as [c|].
      - destruct (Nat.eqb_spec c b) as [->|Nc]; [now rewrite bool_decide_true|rewrite bool_decide_false; congruence].
      - rewrite bool_decide_false by congruence. now apply Nat.eqb_neq. }
    rewrite (count_if_ext _ _ l X), !(sum_if_ext _ _ _ l X). exact T.
Qed.

(** The selected rows of a batch. *)
Definition selected (r : row) : bool := negb (Z.eqb (hr_state r.2) 0) && dict_mem (hr_node r.2) node_map.

Hypothesis HN : 0 < N.
Hypothesis Hmap : forall nd i, dict_get nd node_map = Some i -> i < N.

Lemma filter_map_snd (rows : list row) :
  List.filter (fun r => negb (Z.eqb (hr_state r) 0) && dict_mem (hr_node r) node_map) (map snd rows)
  = map snd (List.filter selected rows).
Proof.
  induction rows as [|r rows IH]; [reflexivity|]. cbn [map List.filter]. unfold selected at 1.
  destruct (negb (hr_state r.2 =? 0)%Z && dict_mem (hr_node r.2) node_map); cbn [map]; now rewrite IH.
Qed.

Lemma rows_phase (rows : list row) : Forall row_fine rows ->
  exists h0 st, new_hist O points valid N = Ok h0 /\ good_shape h0 /\
    foldM (row_step O valid node_map) (HS (replicate N (trip0 O)) (replicate N (replicate F (trip0 O))) h0)
      (map snd (List.filter selected rows)) = Ok st /\ hinv st h0 (List.filter selected rows).
Proof.
  intros FR. destruct new_hist_ok as (h0 & E0 & S0 & I0).
  destruct (rows_ok h0 (List.filter selected rows) [] (HS (replicate N (trip0 O)) (replicate N (replicate F (trip0 O))) h0)) as (st & E & I); [| |exact I0|].
  - apply List.Forall_forall. intros r Hr. apply List.filter_In in Hr as [Hr _]. rewrite List.Forall_forall in FR. auto.
  - apply List.Forall_forall. intros r Hr. apply List.filter_In in Hr as [_ Hr]. unfold selected, dict_mem in Hr.
    destruct (dict_get (hr_node r.2) node_map) as [i|] eqn:Ei; [eauto|]. rewrite andb_false_r in Hr. discriminate.
  - exists h0, st. auto.
Qed.

Definition extra (nid fid b : nat) (rows : list row) : Z :=
  if bool_decide (dict_get fid zero_bins = Some b) then 2 * count_if (fun r => selected r && stored nid fid r) rows else 0.

Lemma batch_ok_mask v (rows : list row) : valid = Some v -> Forall row_fine rows ->
  exists h, batch_histogram O points zero_bins valid node_map (map snd rows) = Ok h /\ good_shape h /\
    forall nid fid p b, nid < N -> points !! fid = Some p -> on fid -> b <= length p ->
     exists t, hget h nid fid b = Some t /\
       let P := fun r => selected r && in_bin nid fid b r in
       trep t (count_if P rows + extra nid fid b rows) (sum_if P (fun r => vg r.1) rows) (sum_if P (fun r => vh r.1) rows) (count_if P rows).
Proof.
  intros Hv FR. destruct (rows_phase rows FR) as (h0 & st & E0 & S0 & E & I).
  unfold batch_histogram. rewrite decide_False by lia. rewrite E0. cbn [mbind res_bind].
  rewrite filter_map_snd, E. cbn [mbind res_bind].
  destruct (zero_loop_ok v Hv st _ h0 I (list_prod (seq 0 N) (seq 0 F)) [] (hs_hist st)) as (h & Eh & L & Z).
  - cbn [app]. apply NoDup_prod; apply NoDup_ListNoDup, seq_NoDup.
  - intros nid fid Hin. apply elem_list_prod in Hin as [H1 H2]. apply elem_of_list_In, in_seq in H1.
    apply elem_of_list_In, in_seq in H2. lia.
  - now apply zinv_init.
  - exists h. split; [exact Eh|]. split; [exact (good_shape_lens _ _ L S0)|]. intros nid fid p b Hn Hp Ho Hb.
    destruct (Z nid fid p b Hn Hp Ho Hb) as (t & Et & Tt). exists t.
    assert (zval ([] ++ list_prod (seq 0 N) (seq 0 F)) nid fid b = bool_decide (dict_get fid zero_bins = Some b)) as EZ.
    { unfold zval. cbn [app]. rewrite bool_decide_true; [reflexivity|]. apply elem_list_prod.
      rewrite !elem_of_list_In, !in_seq. apply lookup_lt_Some in Hp. lia. }
    rewrite EZ in Tt. pose proof (zrep_in_bin t nid fid p b _ Hp Tt) as T.
    split; [exact Et|]. cbv zeta. unfold extra. now rewrite !count_if_filter, !sum_if_filter in T.
Qed.

Lemma batch_ok_none (rows : list row) : valid = None -> Forall row_fine rows ->
  exists h, batch_histogram O points zero_bins valid node_map (map snd rows) = Ok h /\
    forall nid fid p b, nid < N -> points !! fid = Some p -> b <= length p ->
     exists t, hget h nid fid b = Some t /\
       let P := fun r => selected r && stored_at nid fid b r in
       trep t (count_if P rows) (sum_if P (fun r => vg r.1) rows) (sum_if P (fun r => vh r.1) rows) (count_if P rows).
Proof.
  intros Hv FR. destruct (rows_phase rows FR) as (h0 & st & E0 & S0 & E & I).
  unfold batch_histogram. rewrite decide_False by lia. rewrite E0. cbn [mbind res_bind].
  rewrite filter_map_snd, E. cbn [mbind res_bind].
  assert (K : forall l h, foldM (zero_step O valid zero_bins st) h l = Ok h).
  { induction l as [|x l IH]; intros h; cbn [foldM]; [reflexivity|]. unfold zero_step at 1. rewrite Hv. rewrite <- Hv. apply IH. }
  rewrite K. eexists. split; [reflexivity|]. intros nid fid p b Hn Hp Hb.
  destruct (hi_hist _ _ _ I nid fid p b Hn Hp) as (t & Et & T); [unfold on; now rewrite Hv|exact Hb|].
  exists t. split; [exact Et|]. cbv zeta. unfold trep_if in T. now rewrite count_if_filter, !sum_if_filter in T.
Qed.
End batch.

(** Prefix sums. *)
Fixpoint zpre (f : nat -> Z) (k : nat) : Z := match k with 0 => f 0 | S k' => (zpre f k' + f (S k'))%Z end.
Fixpoint qpre (f : nat -> Qc) (k : nat) : Qc := match k with 0 => f 0 | S k' => (qpre f k' + f (S k'))%Qc end.

Lemma accumulate_from_ok L a b c : forall l j prev,
  (forall k t, l !! k = Some t -> trep t (L (S (j + k))) (a (S (j + k))) (b (S (j + k))) (c (S (j + k)))) ->
  trep prev (zpre L j) (qpre a j) (qpre b j) (zpre c j) ->
  exists l', accumulate_from O prev l = Ok l' /\ length l' = length l /\
    forall k t, l' !! k = Some t -> trep t (zpre L (S (j + k))) (qpre a (S (j + k))) (qpre b (S (j + k))) (zpre c (S (j + k))).
Proof.
  induction l as [|t l IH]; intros j prev H P; cbn [accumulate_from].
  - exists []. split; [reflexivity|]. split; [reflexivity|]. intros k t. rewrite lookup_nil. discriminate.
  - pose proof (H 0 t eq_refl) as T. rewrite Nat.add_0_r in T.
    destruct (trip_add_ok _ _ _ _ _ _ _ _ _ _ T P) as (t' & -> & T'). cbn [mbind res_bind].
    assert (P' : trep t' (zpre L (S j)) (qpre a (S j)) (qpre b (S j)) (zpre c (S j))).
    { cbn [zpre qpre]. rewrite (Z.add_comm (zpre L j)), (Z.add_comm (zpre c j)), (Qcplus_comm (qpre a j)), (Qcplus_comm (qpre b j)). exact T'. }
    destruct (IH (S j) t') as (l' & -> & LN & R); [|exact P'|].
    { intros k u Hu. specialize (H (S k) u Hu). now rewrite Nat.add_succ_r in H. }
    cbn [mbind res_bind]. eexists. split; [reflexivity|]. split; [cbn; congruence|].
    intros [|k] u; cbn [lookup list_lookup].
    + intros [= <-]. now rewrite Nat.add_0_r.
    + intros Hu. rewrite Nat.add_succ_r. exact (R k u Hu).
Qed.

Lemma accumulate_feature_ok L a b c l :
  (forall k t, l !! k = Some t -> trep t (L k) (a k) (b k) (c k)) ->
  exists l', accumulate_feature O l = Ok l' /\ length l' = length l /\
    forall k t, l' !! k = Some t -> trep t (zpre L k) (qpre a k) (qpre b k) (zpre c k).
Proof.
  intros H. destruct l as [|t l]; cbn [accumulate_feature].
  - exists []. split; [reflexivity|]. split; [reflexivity|]. intros k t. rewrite lookup_nil. discriminate.
  - pose proof (H 0 t eq_refl) as T.
    destruct (accumulate_from_ok L a b c l 0 t) as (l' & -> & LN & R); [|exact T|].
    { intros k u Hu. exact (H (S k) u Hu). }
    cbn [mbind res_bind]. eexists. split; [reflexivity|]. split; [cbn; congruence|].
    intros [|k] u; cbn [lookup list_lookup]; [intros [= <-]; exact T|]. intros Hu. exact (R k u Hu).
Qed.

Lemma mapR_at {X Y} (f : X -> res Y) (l : list X) : (forall i x, l !! i = Some x -> exists y, f x = Ok y) ->
  exists l', mapR f l = Ok l' /\ length l' = length l /\ forall i y, l' !! i = Some y -> exists x, l !! i = Some x /\ f x = Ok y.
Proof.
  induction l as [|x l IH]; intros H; cbn [mapR].
  - exists []. split; [reflexivity|]. split; [reflexivity|]. intros i y. rewrite lookup_nil. discriminate.
  - destruct (H 0 x eq_refl) as [y Ey]. rewrite Ey. destruct IH as (l' & -> & LN & R); [intros i z Hz; exact (H (S i) z Hz)|].
    eexists. split; [reflexivity|]. split; [cbn; congruence|]. intros [|i] z; cbn [lookup list_lookup].
    + intros [= <-]. eauto.
    + intros Hz. exact (R i z Hz).
Qed.

Lemma mapR_at_fwd {X Y} (f : X -> res Y) (l : list X) l' i x : mapR f l = Ok l' -> l !! i = Some x ->
  exists y, l' !! i = Some y /\ f x = Ok y.
Proof.
  revert l' i. induction l as [|a l IH]; intros l' [|i] E H; cbn in *; try discriminate.
  - injection H as ->. destruct (f x) as [y|]; [|discriminate]. destruct (mapR f l); [|discriminate].
    injection E as <-. eauto.
  - destruct (f a) as [y|]; [|discriminate]. destruct (mapR f l) as [ys|]; [|discriminate].
    injection E as <-. destruct (IH ys i eq_refl H) as (z & Hz & Fz). eauto.
Qed.

(** The accumulated histogram, cell by cell; [desc nid fid] describes the cells of a feature that has any. *)
Lemma accumulate_ok (h : hist C) (L : nat -> nat -> nat -> Z) (a b : nat -> nat -> nat -> Qc) (c : nat -> nat -> nat -> Z) :
  (forall nid fid k t, hget h nid fid k = Some t -> trep t (L nid fid k) (a nid fid k) (b nid fid k) (c nid fid k)) ->
  exists h', accumulate_histogram O h = Ok h' /\ lens h' = lens h /\
    forall nid fid k t, hget h' nid fid k = Some t ->
      trep t (zpre (L nid fid) k) (qpre (a nid fid) k) (qpre (b nid fid) k) (zpre (c nid fid) k).
Proof.
  intros H. unfold accumulate_histogram.
  assert (INNER : forall nid fh, h !! nid = Some fh -> exists fh', mapR (accumulate_feature O) fh = Ok fh' /\
     map length fh' = map length fh /\ forall fid k t, oget fh' fid k = Some t ->
       trep t (zpre (L nid fid) k) (qpre (a nid fid) k) (qpre (b nid fid) k) (zpre (c nid fid) k)).
  { intros nid fh Hn.
    assert (FE : forall fid bh, fh !! fid = Some bh -> exists bh', accumulate_feature O bh = Ok bh' /\ length bh' = length bh /\
       forall k t, bh' !! k = Some t -> trep t (zpre (L nid fid) k) (qpre (a nid fid) k) (qpre (b nid fid) k) (zpre (c nid fid) k)).
    { intros fid bh Hf. apply accumulate_feature_ok. intros k t Hk. apply H. unfold hget. now rewrite Hn, Hf. }
    destruct (mapR_at (accumulate_feature O) fh) as (fh' & E & LN & R).
    { intros fid bh Hf. destruct (FE fid bh Hf) as (bh' & E & _). eauto. }
    exists fh'. split; [exact E|]. split.
    - apply list_eq. intros i. change (map length fh') with (length <$> fh'). change (map length fh) with (length <$> fh).
      rewrite !list_lookup_fmap. destruct (fh' !! i) as [bh'|] eqn:E1.
      + destruct (R i bh' E1) as (bh & E2 & A). rewrite E2. destruct (FE i bh E2) as (b2 & A2 & LL & _).
        cbn. f_equal. congruence.
      + apply lookup_ge_None in E1. rewrite LN in E1. apply lookup_ge_None in E1. now rewrite E1.
    - intros fid k t. unfold oget. destruct (fh' !! fid) as [bh'|] eqn:E1; [|discriminate]. intros Hk.
      destruct (R fid bh' E1) as (bh & E2 & A). destruct (FE fid bh E2) as (b2 & A2 & _ & RR).
      apply RR. congruence. }
  destruct (mapR_at (mapR (accumulate_feature O)) h) as (h' & E & LN & R).
  { intros nid fh Hn. destruct (INNER nid fh Hn) as (fh' & E & _). eauto. }
  exists h'. split; [exact E|]. split.
  - apply list_eq. intros i. unfold lens. change (map (map length) h') with (map length <$> h').
    change (map (map length) h) with (map length <$> h). rewrite !list_lookup_fmap. destruct (h' !! i) as [fh'|] eqn:E1.
    + destruct (R i fh' E1) as (fh & E2 & A). rewrite E2. destruct (INNER i fh E2) as (f2 & A2 & LL & _).
      cbn. f_equal. congruence.
    + apply lookup_ge_None in E1. rewrite LN in E1. apply lookup_ge_None in E1. now rewrite E1.
  - intros nid fid k t. unfold hget. destruct (h' !! nid) as [fh'|] eqn:E1; [|discriminate]. intros Hk.
    destruct (R nid fh' E1) as (fh & E2 & A). destruct (INNER nid fh E2) as (f2 & A2 & _ & RR).
    apply RR. unfold oget. replace f2 with fh' by congruence. exact Hk.
Qed.
End hist.

Section table.
Context {C : Type} (O : numops C) (rep : C -> Z -> Qc -> Prop) (NL : numlaws O rep).
Context {K : Type} `{EqDecision K} (vg vh : K -> Qc).
Context (data : dtable K (dict nat nat * (Z * nat))) (gh : dtable K (C * C)).
Context (points : list (list Qc)) (zero_bins : dict nat nat) (node_map : dict nat nat).
Hypothesis Wd : dt_wf data.
Hypothesis Wg : dt_wf gh.
Hypothesis Keys : forall k, k ∈ dt_keys data -> k ∈ dt_keys gh.
Hypothesis Rgh : forall k c, (k, c) ∈ dt_data gh -> rep c.1 1 (vg k) /\ rep c.2 1 (vh k).

Definition mk_row (d : dict nat nat * (Z * nat)) (g : C * C) : hrow C := HRow d.1 d.2.1 d.2.2 g.1 g.2.
Definition joined : list (K * hrow C) := join_rows mk_row (dt_data data) (dt_data gh).
Definition strip (r : K * hrow C) : K * (dict nat nat * (Z * nat)) := (r.1, (hr_bins r.2, (hr_state r.2, hr_node r.2))).

Lemma joined_ok : dt_join (fun d g => Ok (HRow d.1 d.2.1 d.2.2 g.1 g.2)) data gh = Ok (DT joined).
Proof. apply (dt_join_ok (fun d g => Ok (HRow d.1 d.2.1 d.2.2 g.1 g.2)) mk_row data gh Wg). reflexivity. Qed.

Lemma strip_perm : Permutation (map strip joined) (dt_data data).
Proof.
  assert (EL : forall k r, (k, r) ∈ joined <-> exists d g, (k, d) ∈ dt_data data /\ (k, g) ∈ dt_data gh /\ r = mk_row d g).
  { intros k r. apply (join_rows_elem mk_row (dt_data data) (dt_data gh) k r Wd). }
  apply NoDup_Permutation.
  - apply (NoDup_fmap_1 fst). change (map strip joined) with (strip <$> joined). rewrite <- list_fmap_compose.
    change (fst ∘ strip) with (fst : K * hrow C -> K). unfold joined. rewrite join_rows_keys. apply NoDup_List_filter. exact Wg.
  - apply (NoDup_fmap_1 fst). exact Wd.
  - intros [k d]. change (map strip joined) with (strip <$> joined). rewrite elem_of_list_fmap. split.
    + intros ([k' r] & Es & Hin). apply EL in Hin as (d' & g & H1 & H2 & ->).
      unfold strip in Es. destruct d' as [b [s n]]. cbn in Es. injection Es as -> ->. exact H1.
    + intros Hd. assert (Hk : k ∈ dt_keys gh) by (apply Keys; apply (elem_of_list_fmap_1 fst _ _ Hd)).
      apply elem_of_list_fmap in Hk as ([k' g] & -> & Hg). exists (k', mk_row d g). split.
      * destruct d as [b [s n]]. reflexivity.
      * apply EL. eauto.
Qed.

Lemma sum_joined (P : dict nat nat * (Z * nat) -> bool) (f : K -> Qc) :
  sum_if (fun r => P (strip r).2) (fun r => f r.1) joined = sum_if (fun kd => P kd.2) (fun kd => f kd.1) (dt_data data).
Proof. rewrite <- (sum_if_perm _ _ _ _ strip_perm), sum_if_map. reflexivity. Qed.
Lemma count_joined (P : dict nat nat * (Z * nat) -> bool) :
  count_if (fun r => P (strip r).2) joined = count_if (fun kd => P kd.2) (dt_data data).
Proof. rewrite <- (count_if_perm _ _ _ strip_perm), count_if_map. reflexivity. Qed.

Lemma rows_fine : (forall k r, (k, r) ∈ dt_data data -> NoDup r.1.*1) ->
  (forall k r fid b, (k, r) ∈ dt_data data -> dict_get fid r.1 = Some b -> exists p, points !! fid = Some p /\ b <= length p) ->
  Forall (row_fine rep vg vh points) joined.
Proof.
  intros H1 H2. apply List.Forall_forall. intros [k r] Hin. apply elem_of_list_In in Hin.
  apply (join_rows_elem mk_row (dt_data data) (dt_data gh) k r Wd) in Hin as (d & g & Hd & Hg & ->).
  destruct (Rgh k g Hg) as [Rg Rh]. unfold row_fine, mk_row. cbn.
  split; [exact (H1 k d Hd)|]. split; [exact Rg|]. split; [exact Rh|]. intros fid b Hb. exact (H2 k d fid b Hd Hb).
Qed.

Lemma zpre_count {X} (P : nat -> X -> bool) (Q : nat -> X -> bool) l :
  (forall x, Q 0 x = P 0 x) -> (forall k x, Q (S k) x = Q k x || P (S k) x /\ Q k x && P (S k) x = false) ->
  forall k, zpre (fun i => count_if (P i) l) k = count_if (Q k) l.
Proof.
  intros H0 HS. induction k as [|k IH]; cbn [zpre].
  - apply count_if_ext. auto.
  - rewrite IH. symmetry. apply count_if_split. auto.
Qed.
Lemma qpre_sum {X} (P : nat -> X -> bool) (Q : nat -> X -> bool) f l :
  (forall x, Q 0 x = P 0 x) -> (forall k x, Q (S k) x = Q k x || P (S k) x /\ Q k x && P (S k) x = false) ->
  forall k, qpre (fun i => sum_if (P i) f l) k = sum_if (Q k) f l.
Proof.
  intros H0 HS. induction k as [|k IH]; cbn [qpre].
  - apply sum_if_ext. auto.
  - rewrite IH. symmetry. apply sum_if_split. auto.
Qed.
Lemma zpre_plus f g k : zpre (fun i => f i + g i)%Z k = (zpre f k + zpre g k)%Z.
Proof. induction k; cbn [zpre]; [reflexivity|]. rewrite IHk. lia. Qed.
Lemma zpre_single z m k : zpre (fun i => if bool_decide (z = i) then m else 0%Z) k = if z <=? k then m else 0%Z.
Proof.
  induction k as [|k IH]; cbn [zpre].
  - destruct z; reflexivity.
  - rewrite IH. destruct (Nat.leb_spec z k), (Nat.leb_spec z (S k)); try lia.
    + rewrite bool_decide_false by lia. lia.
    + rewrite bool_decide_true by lia. lia.
    + rewrite bool_decide_false by lia. lia.
Qed.
Lemma zpre_ext f g k : (forall i, i <= k -> f i = g i) -> zpre f k = zpre g k.
Proof. induction k; intros H; cbn [zpre]; [apply H; lia|]. rewrite IHk, H by (intros; try apply H; lia). reflexivity. Qed.
Lemma qpre_ext f g k : (forall i, i <= k -> f i = g i) -> qpre f k = qpre g k.
Proof. induction k; intros H; cbn [qpre]; [apply H; lia|]. rewrite IHk, H by (intros; try apply H; lia). reflexivity. Qed.

Definition node_count (nid : nat) : Z := count_if (fun kd => in_node node_map nid kd.2) (dt_data data).

Lemma get_histograms_ok mask : hist_ok (dt_data data) points zero_bins mask node_map ->
  exists h, get_histograms O data gh points zero_bins (Some mask) node_map = Ok h /\
    good_shape points (Some mask) node_map h /\
    forall nid fid p b, nid < length node_map -> points !! fid = Some p -> mask !! fid = Some true -> b <= length p ->
      let P := fun kd => below node_map zero_bins nid fid b kd.2 in
      exists t L, hget h nid fid b = Some t /\
        (count_if P (dt_data data) <= L <= 3 * Z.of_nat (length (dt_data data)))%Z /\
        rep (tg t) L (sum_if P (fun kd => vg kd.1) (dt_data data)) /\
        rep (th t) L (sum_if P (fun kd => vh kd.1) (dt_data data)) /\
        tc t = count_if P (dt_data data).
Proof.
  intros [HN HM HK HZ HR HB]. unfold get_histograms. rewrite joined_ok. cbn [mbind res_bind].
  pose proof (rows_fine HR HB) as FR.
  destruct (batch_ok_mask O rep NL vg vh points zero_bins (Some mask) node_map HK HZ HN HM mask joined eq_refl FR)
    as (h & E & SH & D).
  change (dt_values (DT joined)) with (map snd joined). rewrite E. cbn [mbind res_bind].
  set (P := fun nid fid b (r : K * hrow C) => selected node_map r && in_bin zero_bins node_map nid fid b r) in *.
  set (EX := fun nid fid b => extra zero_bins node_map nid fid b joined).
  destruct (accumulate_ok O rep NL h (fun nid fid k => (count_if (P nid fid k) joined + EX nid fid k)%Z)
     (fun nid fid k => sum_if (P nid fid k) (fun r => vg r.1) joined) (fun nid fid k => sum_if (P nid fid k) (fun r => vh r.1) joined)
     (fun nid fid k => count_if (P nid fid k) joined)) as (h' & E' & LN & D').
  { intros nid fid k t Ht. pose proof Ht as Ht0. unfold hget in Ht. destruct (h !! nid) as [fh|] eqn:E1; [|discriminate].
    destruct (fh !! fid) as [bh|] eqn:E2; [|discriminate]. destruct SH as [SH1 SH2]. destruct (SH2 nid fh E1) as [SH3 SH4].
    destruct (lookup_lt_is_Some_2 points fid) as [p Hp]; [rewrite <- SH3; eapply lookup_lt_Some; exact E2|].
    destruct (SH4 fid p bh Hp E2) as [SH5 SH6].
    destruct (lookup_lt_is_Some_2 mask fid) as [m Hm]; [rewrite HK; eapply lookup_lt_Some; exact Hp|]. destruct m.
    - apply lookup_lt_Some in Ht. rewrite (SH5 Hm) in Ht.
      destruct (D nid fid p k) as (u & Eu & Tu); [rewrite <- SH1; eapply lookup_lt_Some; exact E1|exact Hp|exact Hm|lia|].
      assert (t = u) as -> by congruence. exact Tu.
    - rewrite (SH6) in Ht by (unfold on; congruence). rewrite lookup_nil in Ht. discriminate. }
  exists h'. split; [exact E'|]. pose proof (good_shape_lens _ _ _ _ _ LN SH) as SH'. split; [exact SH'|].
  intros nid fid p b Hn Hp Hm Hb. cbv zeta. set (Q := fun kd : K * (dict nat nat * (Z * nat)) => below node_map zero_bins nid fid b kd.2).
  destruct SH' as [SA SB]. destruct (lookup_lt_is_Some_2 h' nid) as [fh Hfh]; [lia|].
  destruct (SB nid fh Hfh) as [SC SD]. destruct (lookup_lt_is_Some_2 fh fid) as [bh Hbh]; [rewrite SC; eapply lookup_lt_Some; exact Hp|].
  destruct (SD fid p bh Hp Hbh) as [SE _]. destruct (lookup_lt_is_Some_2 bh b) as [t Ht]; [rewrite SE by exact Hm; lia|].
  assert (HG : hget h' nid fid b = Some t) by (unfold hget; now rewrite Hfh, Hbh).
  exists t, (zpre (fun k => (count_if (P nid fid k) joined + EX nid fid k)%Z) b). split; [exact HG|].
  destruct (D' nid fid b t HG) as (T1 & T2 & T3).
  set (PB := fun k (r : K * hrow C) => below node_map zero_bins nid fid k (strip r).2).
  assert (X0 : forall x, PB 0 x = P nid fid 0 x).
  { intros x. unfold PB, P, below, in_node, selected, in_bin, at_node, dict_mem. cbn [strip fst snd].
    destruct (negb (hr_state x.2 =? 0)%Z); cbn [andb]; [|reflexivity].
    destruct (dict_get (hr_node x.2) node_map) as [i|]; cbn [andb]; [|now rewrite bool_decide_false by congruence].
    f_equal. now destruct (bin_of zero_bins fid (hr_bins x.2)). }
  assert (XS : forall k x, PB (S k) x = PB k x || P nid fid (S k) x /\ PB k x && P nid fid (S k) x = false).
  { intros k x. unfold PB, P, below, in_node, selected, in_bin, at_node, dict_mem. cbn [strip fst snd].
    destruct (negb (hr_state x.2 =? 0)%Z); cbn [andb]; [|auto].
    destruct (dict_get (hr_node x.2) node_map) as [i|]; cbn [andb]; [|rewrite bool_decide_false by congruence; auto].
    destruct (bool_decide (Some i = Some nid)); cbn [andb]; [|auto].
    set (c := bin_of zero_bins fid (hr_bins x.2)).
    destruct (Nat.leb_spec c (S k)), (Nat.leb_spec c k), (Nat.eqb_spec c (S k)); try lia; auto. }
  assert (CJ : zpre (fun k => count_if (P nid fid k) joined) b = count_if Q (dt_data data)).
  { rewrite (zpre_count (P nid fid) PB joined X0 XS). apply (count_joined (below node_map zero_bins nid fid b)). }
  rewrite CJ in T3.
  rewrite (qpre_sum (P nid fid) PB _ joined X0 XS) in T1. rewrite (qpre_sum (P nid fid) PB _ joined X0 XS) in T2.
  unfold PB in T1, T2. rewrite (sum_joined (below node_map zero_bins nid fid b)) in T1, T2.
  split; [|split; [exact T1|split; [exact T2|exact T3]]].
  rewrite zpre_plus, CJ. destruct (HZ fid p Hp) as (z & Hz & _).
  assert (EE : forall k, EX nid fid k = if bool_decide (z = k) then (2 * count_if (fun r => selected node_map r && stored node_map nid fid r) joined)%Z else 0%Z).
  { intros k. unfold EX, extra. rewrite Hz. destruct (decide (z = k)) as [->|Ne]; [now rewrite !bool_decide_true|now rewrite !bool_decide_false by congruence]. }
  rewrite (zpre_ext (EX nid fid) _ b (fun k _ => EE k)), zpre_single.
  pose proof (count_if_bound Q (dt_data data)).
  pose proof (count_if_bound (fun r => selected node_map r && stored node_map nid fid r) joined).
  assert (LJ : length joined = length (dt_data data)) by (rewrite <- (Permutation_length strip_perm), map_length; reflexivity).
  destruct (z <=? b); lia.
Qed.
End table.
