(** The guest's search in doubles. *)
From Verif Require Export FloatSplitSpec FloatSplitProofs.
Local Open Scope nat_scope.

Definition f_cgain (lam : Qc) (c : nat * nat * (trip Qc * trip Qc)) : res Qc :=
  let t := c.2.1 in let T := c.2.2 in f_split_gain lam (tg T) (th T) (tg t) (th t) (fround (tg T - tg t)%Qc) (fround (th T - th t)%Qc).

Lemma f_guest_features_ok P valid feats : forall fid st, length valid >= fid + length feats ->
  f_guest_features P valid fid feats (to_best st)
  = st' ← foldM (best_loop (min_impurity P) (f_cgain (reg_lambda P))) st (cand_list P valid fid feats); Ok (to_best st').
Proof.
  induction feats as [|bins feats IH]; intros fid st HL; [reflexivity|]. cbn [f_guest_features cand_list]. cbn [length] in HL.
  unfold list_index. destruct (lookup_lt_is_Some_2 valid fid) as [v Hv]; [lia|]. rewrite Hv. cbn [mbind res_bind].
  destruct v; cbn [negb]; [|apply IH; lia]. destruct (last bins) as [tot|]; [|apply IH; lia].
  destruct (tc tot <? min_sample P)%Z; [reflexivity|]. rewrite foldM_app. unfold bin_cands. rewrite foldM_filter.
  rewrite (foldM_simul (fun s a => if (min_leaf P <=? tc a.2)%Z && (min_leaf P <=? tc tot - tc a.2)%Z
    then best_loop (min_impurity P) (f_cgain (reg_lambda P)) s (fid, a.1, (a.2, tot)) else Ok s) (f_guest_bin P fid tot) to_best).
  - destruct (foldM _ st _) as [st'|e]; [|reflexivity]. cbn [mbind res_bind]. apply IH. lia.
  - intros s a. unfold f_guest_bin. destruct (_ && _); [|reflexivity]. unfold best_loop, f_cgain. cbn [fst snd].
    destruct (f_split_gain _ _ _ _ _ _ _) as [x|e]; [|reflexivity]. cbn [mbind res_bind to_best b_gain].
    destruct (qltb (min_impurity P) x && qltb s.1 x); reflexivity.
Qed.

Definition f_start (P : sparams) : Qc := fround (min_impurity P - fround FLOAT_ZERO)%Qc.
Lemma f_start_le P : fround (min_impurity P) = min_impurity P -> (f_start P <= min_impurity P)%Qc.
Proof.
  intros E. unfold f_start. rewrite <- E at 2. apply fround_mono. assert (zq 0 <= fround FLOAT_ZERO)%Qc by (apply fround_nonneg; pose proof FLOAT_ZERO_pos; now apply Qclt_le_weak).
  change (zq 0) with 0%Qc in H. qlra.
Qed.

Definition f_guest_result (P : sparams) (r : option (nat * nat * (trip Qc * trip Qc) * Qc)) : splitinfo Qc Qc :=
  match r with
  | Some (c, x) => SInfo GuestSite (Some c.1.1) (Some c.1.2) (Some (tg c.2.1)) (Some (th c.2.1)) (Some x)
  | None => SInfo GuestSite None None None None (Some (f_start P))
  end.
Lemma f_find_split_guest_ok P valid h xs : length valid >= length h -> fround (min_impurity P) = min_impurity P ->
  mapR (f_cgain (reg_lambda P)) (cand_list P valid 0 h) = Ok xs ->
  f_find_split_guest P valid h = Ok (f_guest_result P (first_best (min_impurity P) (combine (cand_list P valid 0 h) xs))).
Proof.
  intros HL HM E. unfold f_find_split_guest. fold (f_start P).
  change (Best (f_start P) None) with (to_best (f_start P, None)).
  rewrite f_guest_features_ok by (cbn; lia). rewrite best_loop_ok, E. cbn [mbind res_bind].
  pose proof (first_best_gt (min_impurity P) (combine (cand_list P valid 0 h) xs)) as G.
  destruct (first_best _ _) as [[[[f b] [t T]] x]|]; cbn [SplitProofs.merge fst snd]; [|reflexivity].
  specialize (G _ _ eq_refl). pose proof (f_start_le P HM) as F.
  rewrite (proj2 (qltb_true _ _)) by qlra. reflexivity.
Qed.

Lemma mapR_all {A B} (g : A -> res B) l : (forall c, c ∈ l -> exists v, g c = Ok v) -> exists xs, mapR g l = Ok xs.
Proof.
  intros X. induction l as [|c l IH]; [exists []; reflexivity|]. destruct (X c) as (v & Hv); [left|]. destruct IH as (vs & Hvs); [intros; apply X; now right|].
  exists (v :: vs). cbn. rewrite Hv. cbn. rewrite Hvs. reflexivity.
Qed.
Lemma combine_at {A B} (g : A -> res B) l : forall xs, mapR g l = Ok xs ->
  (forall i c x, combine l xs !! i = Some (c, x) -> l !! i = Some c /\ g c = Ok x) /\ (forall i c, l !! i = Some c -> exists x, combine l xs !! i = Some (c, x)).
Proof.
  induction l as [|c l IH]; intros xs E; [split; intros i c; intros; rewrite lookup_nil in *; discriminate|]. cbn in E. destruct (g c) as [y|] eqn:E1; [|discriminate]. cbn in E.
  destruct (mapR g l) as [ys|] eqn:E2; [|discriminate]. injection E as <-. destruct (IH ys eq_refl) as [I1 I2]. split.
  - intros [|i] c' x; cbn; [intros [= <- <-]; auto|apply I1].
  - intros [|i] c'; cbn; [intros [= <-]; eauto|apply I2].
Qed.

(** If every candidate's gain is found up to [D], the search finds a candidate whose true gain is largest up to [2 D]. *)
Lemma first_near {A} (g : A -> res Qc) (tr : A -> Qc) (D m : Qc) l xs : mapR g l = Ok xs -> (forall c, c ∈ l -> exists v, g c = Ok v /\ (qabs (v - tr c) <= D)%Qc) ->
  match first_best m (combine l xs) with
  | Some (c, x) => c ∈ l /\ (qabs (x - tr c) <= D)%Qc /\ (m < x)%Qc /\ forall c', c' ∈ l -> (tr c' <= tr c + zq 2 * D)%Qc
  | None => forall c', c' ∈ l -> (tr c' <= m + D)%Qc
  end.
Proof.
  intros E G. destruct (combine_at g l xs E) as [AT TA]. pose proof (first_best_spec m (combine l xs)) as FB.
  destruct (first_best m (combine l xs)) as [[c x]|].
  - destruct FB as (G1 & i & Hi & Mx). destruct (AT _ _ _ Hi) as [Hl Hx]. assert (HC : c ∈ l) by (eapply elem_of_list_lookup_2; exact Hl).
    destruct (G _ HC) as (v & Hv & Dv). rewrite Hx in Hv. injection Hv as <-.
    split; [exact HC|]. split; [exact Dv|]. split; [exact G1|]. intros c' HC'. destruct (G _ HC') as (v' & Hv' & Dv').
    apply elem_of_list_lookup in HC' as (j & Hj). destruct (TA _ _ Hj) as (x' & Hx'). destruct (AT _ _ _ Hx') as [_ Hv'']. rewrite Hv' in Hv''. injection Hv'' as <-.
    destruct (Mx _ _ _ Hx') as [Le _]. change (zq 2) with (Q2Qc (2 # 1)). apply qabs_le in Dv as [], Dv' as []. clear - Le H H0 H1 H2. qlra.
  - intros c' HC'. destruct (G _ HC') as (v' & Hv' & Dv').
    apply elem_of_list_lookup in HC' as (j & Hj). destruct (TA _ _ Hj) as (x' & Hx'). destruct (AT _ _ _ Hx') as [_ Hv'']. rewrite Hv' in Hv''. injection Hv'' as <-.
    pose proof (FB _ _ _ Hx') as Le. apply qabs_le in Dv' as []. clear - Le H H0. qlra.
Qed.

Lemma f_search P valid h (D : Qc) (tr : nat -> nat -> Qc) : length valid >= length h -> fround (min_impurity P) = min_impurity P ->
  (forall f b t T, candidate P valid h f b t T -> exists v, f_cgain (reg_lambda P) (f, b, (t, T)) = Ok v /\ (qabs (v - tr f b) <= D)%Qc) ->
  exists s, f_find_split_guest P valid h = Ok s /\
    match si_fid s, si_bid s, si_gain s with
    | Some f, Some b, Some x => (exists t T, candidate P valid h f b t T /\ si_grad s = Some (tg t) /\ si_hess s = Some (th t)) /\ (qabs (x - tr f b) <= D)%Qc /\ (min_impurity P < x)%Qc /\
        forall f' b' t' T', candidate P valid h f' b' t' T' -> (tr f' b' <= tr f b + zq 2 * D)%Qc
    | None, None, Some x => (x <= min_impurity P)%Qc /\ forall f' b' t' T', candidate P valid h f' b' t' T' -> (tr f' b' <= min_impurity P + D)%Qc
    | _, _, _ => False
    end.
Proof.
  intros HL HM. generalize (f_find_split_guest_ok P valid h). generalize (f_cgain (reg_lambda P)). intros g R G. set (l := cand_list P valid 0 h) in *.
  assert (MEM : forall f b t T, (f, b, (t, T)) ∈ l <-> candidate P valid h f b t T).
  { intros f b t T. unfold l. rewrite cand_list_elem, drop_0, Nat.sub_0_r. split; [tauto|]. intros; split; [lia|assumption]. }
  assert (G' : forall c, c ∈ l -> exists v, g c = Ok v /\ (qabs (v - tr c.1.1 c.1.2) <= D)%Qc) by (intros [[f b] [t T]] Hc; apply G; now apply MEM).
  destruct (mapR_all g l) as (xs & E); [intros c Hc; destruct (G' c Hc) as (v & Hv & _); eauto|].
  rewrite (R xs HL HM E). eexists. split; [reflexivity|].
  pose proof (first_near g (fun c => tr c.1.1 c.1.2) D (min_impurity P) l xs E G') as F.
  destruct (first_best (min_impurity P) (combine l xs)) as [[[[f b] [t T]] x]|]; cbn [f_guest_result si_fid si_bid si_gain si_grad si_hess fst snd] in *.
  - destruct F as (F1 & F2 & F3 & F4). split; [exists t, T; split; [now apply MEM|auto]|]. split; [exact F2|]. split; [exact F3|]. intros f' b' t' T' HC. apply (F4 (f', b', (t', T'))). now apply MEM.
  - split; [now apply f_start_le|]. intros f' b' t' T' HC. apply (F (f', b', (t', T'))). now apply MEM.
Qed.

(** ** From the rows to the cells. *)
Lemma sum_if_abs {A} (P : A -> bool) f (l : list A) : (forall x, x ∈ l -> qabs (f x) <= 1)%Qc -> (qabs (sum_if P f l) <= zq (Z.of_nat (length l)))%Qc.
Proof.
  induction l as [|x l IH]; intros H; [apply qleb_true; vm_compute; reflexivity|]. rewrite sum_if_cons. cbn [length]. rewrite Nat2Z.inj_succ, <- Z.add_1_r, zq_add. change (zq 1) with 1%Qc.
  assert (A1 : (qabs (f x) <= 1)%Qc) by (apply H; left). assert (A2 : (qabs (sum_if P f l) <= zq (Z.of_nat (length l)))%Qc) by (apply IH; intros; apply H; now right).
  apply qabs_le in A1 as [], A2 as []. apply qabs_le. destruct (P x); change (zq 0) with 0%Qc; split; qlra.
Qed.
Lemma sum_if_mono {A} (P Q : A -> bool) f (l : list A) : (forall x, x ∈ l -> 0 <= f x)%Qc -> (forall x, x ∈ l -> P x = true -> Q x = true) -> (sum_if P f l <= sum_if Q f l)%Qc.
Proof.
  induction l as [|x l IH]; intros H HP; [apply Qcle_refl|]. rewrite !sum_if_cons.
  assert (A1 : (0 <= f x)%Qc) by (apply H; left). assert (A2 : (sum_if P f l <= sum_if Q f l)%Qc) by (apply IH; intros; [apply H|apply HP]; try assumption; now right).
  specialize (HP x (elem_of_list_here _ _)). change (zq 0) with 0%Qc. clear H IH. destruct (P x), (Q x); [| |clear HP..]; [clear HP|exfalso; discriminate (HP eq_refl)| |]; qlra.
Qed.
Lemma sum_if_nonneg {A} (P : A -> bool) f (l : list A) : (forall x, x ∈ l -> 0 <= f x)%Qc -> (0 <= sum_if P f l)%Qc.
Proof.
  induction l as [|x l IH]; intros H; [apply Qcle_refl|]. rewrite sum_if_cons.
  assert (A1 : (0 <= f x)%Qc) by (apply H; left). assert (A2 : (0 <= sum_if P f l)%Qc) by (apply IH; intros; apply H; now right).
  change (zq 0) with 0%Qc. destruct (P x); qlra.
Qed.

Section Rows.
  Context {K : Type} `{EqDecision K} (vg vh : K -> Qc) (data : dtable K (dict nat nat * (Z * nat))) (gh : dtable K (Qc * Qc))
          (points : list (list Qc)) (zero_bins : dict nat nat) (mask : list bool) (node_map : dict nat nat).
  Context (Wd : dt_wf data) (Wg : dt_wf gh) (Keys : forall k, k ∈ dt_keys data -> k ∈ dt_keys gh)
          (GH : forall k c, (k, c) ∈ dt_data gh -> c = (vg k, vh k)) (HO : hist_ok (dt_data data) points zero_bins mask node_map).
  Let n : Z := Z.of_nat (length (dt_data data)).
  Let B (nid fid b : nat) (kd : K * (dict nat nat * (Z * nat))) : bool := below node_map zero_bins nid fid b kd.2.
  Let T (nid : nat) (kd : K * (dict nat nat * (Z * nat))) : bool := in_node node_map nid kd.2.

  Lemma last_is_node nid fid p : points !! fid = Some p -> forall kd, kd ∈ dt_data data -> B nid fid (length p) kd = T nid kd.
  Proof.
    intros Hp [k r] Hin. unfold B, below, T. cbn [snd]. destruct (in_node node_map nid r) eqn:EN; [|reflexivity]. cbn [andb]. apply Nat.leb_le.
    unfold bin_of. destruct (dict_get fid r.1) as [c0|] eqn:Ec.
    - destruct (ho_bin _ _ _ _ _ HO k r fid c0 Hin Ec) as (p' & Hp' & Hc). rewrite Hp in Hp'. now injection Hp' as <-.
    - destruct (ho_zero _ _ _ _ _ HO fid p Hp) as (z & -> & Hz). exact Hz.
  Qed.

  Lemma grid_cells t M : (0 <= M)%Z -> (3 * n * M <= 2 ^ 53)%Z ->
    (forall k, k ∈ dt_keys gh -> exists a b, vg k = (zq a * p2 t)%Qc /\ vh k = (zq b * p2 t)%Qc /\ (Z.abs a <= M)%Z /\ (Z.abs b <= M)%Z) ->
    exists h, get_histograms fops data gh points zero_bins (Some mask) node_map = Ok h /\
      forall nid fid p b, nid < length node_map -> points !! fid = Some p -> mask !! fid = Some true -> b <= length p ->
        hget h nid fid b = Some (Trip (sum_if (B nid fid b) (fun kd => vg kd.1) (dt_data data)) (sum_if (B nid fid b) (fun kd => vh kd.1) (dt_data data)) (count_if (B nid fid b) (dt_data data))).
  Proof.
    intros HM HB V.
    destruct (get_histograms_ok fops (on_grid t M) (grid_laws t M HM) vg vh data gh points zero_bins node_map Wd Wg Keys) with (mask := mask) as (h & E & _ & D); [|exact HO|].
    { intros k c Hc. assert (Hk : k ∈ dt_keys gh) by (apply elem_of_list_fmap; exists (k, c); auto). destruct (V k Hk) as (a & b & E1 & E2 & A1 & A2).
      rewrite (GH k c Hc). cbn [fst snd]. rewrite E1, E2. split; (split; [lia|]; intros _; split; [reflexivity|]; eexists; split; [|reflexivity]; lia). }
    exists h. split; [exact E|]. intros nid fid p b Hn Hp Hm Hb. destruct (D nid fid p b Hn Hp Hm Hb) as ([g w c] & L & Et & HL & (_ & T1) & (_ & T2) & T3).
    rewrite Et. cbn [tg th tc] in *. fold n in HL. destruct T1 as [-> _]; [nia|]. destruct T2 as [-> _]; [nia|]. subst c. reflexivity.
  Qed.

  Context (V : forall k, k ∈ dt_keys gh -> is_double (vg k) /\ is_double (vh k) /\ (qabs (vg k) <= 1)%Qc /\ (0 <= vh k)%Qc /\ (vh k <= 1)%Qc).
  Context (Hn51 : (3 * n <= 2 ^ 51)%Z).
  Let e0 : Qc := (ulp * (zq (3 * n) * zq (3 * n)))%Qc.

  Lemma near_cells : exists h, get_histograms fops data gh points zero_bins (Some mask) node_map = Ok h /\
    good_shape points (Some mask) node_map h /\
    forall nid fid p b, nid < length node_map -> points !! fid = Some p -> mask !! fid = Some true -> b <= length p ->
      exists t, hget h nid fid b = Some t /\
        (qabs (tg t - sum_if (B nid fid b) (fun kd => vg kd.1) (dt_data data)) <= e0)%Qc /\
        (qabs (th t - sum_if (B nid fid b) (fun kd => vh kd.1) (dt_data data)) <= e0)%Qc /\ tc t = count_if (B nid fid b) (dt_data data).
  Proof.
    destruct (get_histograms_ok fops near near_laws vg vh data gh points zero_bins node_map Wd Wg Keys) with (mask := mask) as (h & E & SH & D); [|exact HO|].
    { intros k c Hc. assert (Hk : k ∈ dt_keys gh) by (apply elem_of_list_fmap; exists (k, c); auto). destruct (V k Hk) as (D1 & D2 & A1 & A2 & A3).
      rewrite (GH k c Hc). cbn [fst snd]. split; (split; [lia|]; split; [now apply fround_double|]; intros _; split; [match goal with |- (qabs (?a - ?a) <= _)%Qc => replace (a - a)%Qc with 0%Qc by ring end; apply qleb_true; vm_compute; reflexivity|]); [exact A1|].
      apply qabs_le. change (zq 1) with 1%Qc. split; qlra. }
    exists h. split; [exact E|]. split; [exact SH|]. intros nid fid p b Hn Hp Hm Hb. destruct (D nid fid p b Hn Hp Hm Hb) as (t & L & Et & HL & (L0 & _ & T1) & (_ & _ & T2) & T3).
    fold n in HL. exists t. split; [exact Et|]. destruct T1 as [T1 _]; [lia|]. destruct T2 as [T2 _]; [lia|].
    assert (X : (ulp * (zq L * zq L) <= e0)%Qc).
    { unfold e0. assert (X1 : (zq L <= zq (3 * n))%Qc) by (apply zq_le; lia). assert (X2 : (0 <= zq L)%Qc) by (apply (zq_le 0); lia). apply mul_le_l; [apply Qclt_le_weak, ulp_pos|]. clear - X1 X2. generalize dependent (zq (3 * n)). intros. qnra. }
    split; [eapply Qcle_trans; [exact T1|exact X]|]. split; [eapply Qcle_trans; [exact T2|exact X]|exact T3].
  Qed.

  Context (P : sparams) (MD : fround (min_impurity P) = min_impurity P) (n1 : (1 <= n <= 2 ^ 47)%Z) (lam0 : (0 < reg_lambda P)%Qc)
          (lamn : (p2 (-44) * (zq n * zq n) <= reg_lambda P)%Qc) (SUB : forall k, k ∈ dt_keys data -> k ∈ dt_keys gh).
  Let i : Qc := (/ reg_lambda P)%Qc.
  Let D : Qc := (p2 (-38) * (zq n * zq n * (zq n * zq n)) * (i + i * i))%Qc.
  Notation tr nid := (true_gain vg vh (dt_data data) zero_bins node_map P nid).
  Notation ok nid := (allowed (dt_data data) points zero_bins mask node_map P nid).

  Lemma cell_of (h : hist Qc) nid fh f bins b t : good_shape points (Some mask) node_map h -> h !! nid = Some fh -> fh !! f = Some bins -> mask !! f = Some true -> bins !! b = Some t ->
    exists p, points !! f = Some p /\ length bins = S (length p) /\ b <= length p /\ hget h nid f b = Some t.
  Proof.
    intros [SH1 SH2] Hn Hf Hm Hb. destruct (SH2 nid fh Hn) as [L SH3]. destruct (lookup_lt_is_Some_2 points f) as [p Hp]; [rewrite <- L; eapply lookup_lt_Some; exact Hf|].
    destruct (SH3 f p bins Hp Hf) as [SH4 _]. specialize (SH4 Hm). exists p. split; [exact Hp|]. split; [exact SH4|]. split; [apply lookup_lt_Some in Hb; lia|].
    unfold hget. rewrite Hn, Hf. exact Hb.
  Qed.

  Lemma key_double kd : kd ∈ dt_data data -> (qabs (vg kd.1) <= 1)%Qc /\ (qabs (vh kd.1) <= 1)%Qc /\ (0 <= vh kd.1)%Qc.
  Proof.
    intros Hin. destruct (V kd.1) as (_ & _ & A1 & A2 & A3); [apply SUB; apply elem_of_list_fmap; eauto|]. split; [exact A1|]. split; [|exact A2]. apply qabs_le. split; qlra.
  Qed.

  Lemma e_facts : let e := (Q2Qc (3 # 1) * e0)%Qc in
    (uu <= e)%Qc /\ (e <= zq 2 * zq n)%Qc /\ (zq 8 * e <= reg_lambda P)%Qc /\ (uu * (zq 2 * zq n + zq 2 * e0) <= e0)%Qc /\ (0 <= e0)%Qc /\
    (zq 4 * (zq 32 * (zq 2 * zq n * (zq 2 * zq n) * e * (i + i * i))) <= D)%Qc.
  Proof.
    cbv zeta. assert (E0 : e0 = (Q2Qc (9 # 1) * (ulp * (zq n * zq n)))%Qc) by (unfold e0; rewrite zq_mul; change (zq 3) with (Q2Qc (3 # 1)); clear; generalize (zq n) ulp; intros; qlra).
    rewrite E0. clear E0. unfold uu. rewrite half_ulp. unfold D. assert (lamn' := lamn).
    assert (R1 : p2 (-38) = Q2Qc (16384 # 4503599627370496)) by (apply Qc_is_canon; vm_compute; reflexivity). rewrite R1. clear R1.
    assert (R1 : p2 (-44) = Q2Qc (256 # 4503599627370496)) by (apply Qc_is_canon; vm_compute; reflexivity). rewrite R1 in lamn'. clear R1.
    assert (R1 : ulp = Q2Qc (1 # 4503599627370496)) by (apply Qc_is_canon; vm_compute; reflexivity). rewrite R1. clear R1.
    change (zq 2) with (Q2Qc (2 # 1)). change (zq 8) with (Q2Qc (8 # 1)). change (zq 4) with (Q2Qc (4 # 1)). change (zq 32) with (Q2Qc (32 # 1)).
    assert (N1 : (1 <= zq n)%Qc) by (apply (zq_le 1); lia). assert (N2 : (zq n <= Q2Qc (140737488355328 # 1))%Qc) by (apply (zq_le n 140737488355328); lia).
    assert (I0 : (0 < i)%Qc) by (refine (proj1 (i_pos 1%Qc 0%Qc (reg_lambda P) lam0 _)); clear - lam0; qlra).
    assert (I1 : (0 < i + i * i)%Qc) by (clear - I0; clearbody i; qnra). generalize dependent (i + i * i)%Qc. generalize dependent (zq n). intros m. intros.
    assert (M : (m <= m * m)%Qc) by (clear - N1; qnra). assert (M4 : (0 <= m * m * (m * m))%Qc) by (assert (0 <= m * m)%Qc by (clear - N1; qnra); clear - H; qnra).
    assert (M5 : (0 <= m * m * (m * m) * q)%Qc) by (clear - M4 I1; generalize dependent (m * m * (m * m))%Qc; intros; qnra).
    assert (M6 : (m * m <= Q2Qc (140737488355328 # 1) * m)%Qc) by (clear - N1 N2; qnra).
    repeat split; clear - N1 N2 M M4 M5 M6 lamn'; try qlra.
  Qed.

  Lemma near_best h nid fh : get_histograms fops data gh points zero_bins (Some mask) node_map = Ok h -> nid < length node_map -> h !! nid = Some fh ->
    exists s, f_find_split_guest P mask fh = Ok s /\
      match si_fid s, si_bid s, si_gain s with
      | Some f, Some b, Some x => ok nid f b /\ (qabs (x - tr nid f b) <= D)%Qc /\ (min_impurity P < x)%Qc /\ forall f' b', ok nid f' b' -> (tr nid f' b' <= tr nid f b + zq 2 * D)%Qc
      | None, None, Some x => (x <= min_impurity P)%Qc /\ forall f' b', ok nid f' b' -> (tr nid f' b' <= min_impurity P + D)%Qc
      | _, _, _ => False
      end.
  Proof.
    intros E Hn Hfh. destruct near_cells as (h0 & E' & SH & CL). rewrite E in E'. injection E' as <-.
    assert (LM : length mask >= length fh). { destruct SH as [_ SH2]. destruct (SH2 nid fh Hfh) as [L _]. rewrite (ho_mask _ _ _ _ _ HO), L. lia. }
    assert (TOT : forall f bins T0, fh !! f = Some bins -> mask !! f = Some true -> last bins = Some T0 -> exists p, points !! f = Some p /\ length bins = S (length p) /\
      (qabs (tg T0 - node_sum (dt_data data) node_map nid vg) <= e0)%Qc /\ (qabs (th T0 - node_sum (dt_data data) node_map nid vh) <= e0)%Qc /\ tc T0 = node_rows (dt_data data) node_map nid).
    { intros f bins T0 Hf Hm Hl. rewrite last_lookup in Hl. destruct (cell_of h nid fh f bins _ _ SH Hfh Hf Hm Hl) as (p & Hp & Lb & _ & HG). exists p. split; [exact Hp|]. split; [exact Lb|].
      rewrite Lb in HG. cbn [pred] in HG. destruct (CL nid f p (length p) Hn Hp Hm ltac:(lia)) as (t & Ht & T1 & T2 & T3). rewrite HG in Ht. injection Ht as <-.
      pose proof (last_is_node nid f p Hp) as LN. unfold node_sum, node_rows. rewrite (sum_if_ext _ (T nid) _ _ LN) in T1. rewrite (sum_if_ext _ (T nid) _ _ LN) in T2. rewrite (count_if_ext _ (T nid) _ LN) in T3. auto. }
    assert (AL : forall f b t T0, candidate P mask fh f b t T0 -> ok nid f b /\
      (qabs (tg T0 - node_sum (dt_data data) node_map nid vg) <= e0)%Qc /\ (qabs (th T0 - node_sum (dt_data data) node_map nid vh) <= e0)%Qc /\
      (qabs (tg t - left_sum (dt_data data) zero_bins node_map nid vg f b) <= e0)%Qc /\ (qabs (th t - left_sum (dt_data data) zero_bins node_map nid vh f b) <= e0)%Qc).
    { intros f b t T0 ((Hm & bins & Hf & Hl) & (bins' & Hf' & Hb) & HS & HL1 & HL2). rewrite Hf in Hf'. injection Hf' as <-.
      destruct (TOT f bins T0 Hf Hm Hl) as (p & Hp & Lb & T1 & T2 & T3). destruct (cell_of h nid fh f bins b t SH Hfh Hf Hm Hb) as (p' & Hp' & _ & Lb' & HG). rewrite Hp in Hp'. injection Hp' as <-.
      destruct (CL nid f p b Hn Hp Hm Lb') as (t' & Ht' & C1 & C2 & C3). rewrite HG in Ht'. injection Ht' as <-.
      assert (S1 : (min_sample P <= tc T0)%Z) by (apply (HS f T0); [lia|]; split; [exact Hm|]; eauto).
      split; [|split; [exact T1|]; split; [exact T2|]; split; [exact C1|exact C2]]. unfold allowed, left_rows. fold (B nid f b). rewrite <- T3, <- C3. split; [exact Hm|]. split; [eauto|]. auto. }
    assert (LA : forall f b, ok nid f b -> exists t T0, candidate P mask fh f b t T0).
    { intros f b (Hm & (p & Hp & Hb) & HS & HL1 & HL2). pose proof (proj2 SH) as SH2. destruct (SH2 nid fh Hfh) as [L SH3].
      destruct (lookup_lt_is_Some_2 fh f) as [bins Hf]; [rewrite L; eapply lookup_lt_Some; exact Hp|]. destruct (SH3 f p bins Hp Hf) as [SH4 _]. specialize (SH4 Hm).
      destruct (lookup_lt_is_Some_2 bins b) as [t Ht]; [lia|]. destruct (last bins) as [T0|] eqn:Hl; [|rewrite last_lookup in Hl; apply lookup_ge_None in Hl; lia].
      exists t, T0. destruct (TOT f bins T0 Hf Hm Hl) as (_ & _ & _ & _ & _ & T3). destruct (CL nid f p b Hn Hp Hm Hb) as (t' & Ht' & _ & _ & C3). unfold hget in Ht'. rewrite Hfh, Hf, Ht in Ht'. injection Ht' as <-.
      split; [split; [exact Hm|]; eauto|]. split; [eauto|]. rewrite T3, C3. split; [|split; assumption].
      intros f' tot' _ (Hm' & bins' & Hf' & Hl'). destruct (TOT f' bins' tot' Hf' Hm' Hl') as (_ & _ & _ & _ & _ & T3'). rewrite T3'. exact HS. }
    destruct (f_search P mask fh D (tr nid) LM MD) as (s & Es & R).
    { intros f b t T0 HC. destruct (AL f b t T0 HC) as (_ & T1 & T2 & C1 & C2). unfold f_cgain. cbn [fst snd].
      destruct e_facts as (F1 & F2 & F3 & F4 & F5 & F6). cbv zeta in *. set (e := (Q2Qc (3 # 1) * e0)%Qc) in *.
      assert (NN : (1 <= zq n)%Qc) by (apply (zq_le 1); lia).
      assert (KG : forall Q, (qabs (sum_if Q (fun kd => vg kd.1) (dt_data data)) <= zq n)%Qc) by (intros; apply sum_if_abs; intros kd Hk; apply (key_double kd Hk)).
      assert (KH : forall Q, (qabs (sum_if Q (fun kd => vh kd.1) (dt_data data)) <= zq n)%Qc) by (intros; apply sum_if_abs; intros kd Hk; apply (key_double kd Hk)).
      assert (KP : forall Q, (0 <= sum_if Q (fun kd => vh kd.1) (dt_data data))%Qc) by (intros; apply sum_if_nonneg; intros kd Hk; apply (key_double kd Hk)).
      assert (KM : (left_sum (dt_data data) zero_bins node_map nid vh f b <= node_sum (dt_data data) node_map nid vh)%Qc).
      { apply sum_if_mono; [intros kd Hk; apply (key_double kd Hk)|]. intros kd _. unfold below. intros X%andb_true_iff. apply X. }
      pose proof (KG (fun kd => in_node node_map nid kd.2)) as G1. pose proof (KH (fun kd => in_node node_map nid kd.2)) as H1. pose proof (KP (fun kd => in_node node_map nid kd.2)) as P1.
      pose proof (KG (fun kd => below node_map zero_bins nid f b kd.2)) as G2. pose proof (KH (fun kd => below node_map zero_bins nid f b kd.2)) as H2. pose proof (KP (fun kd => below node_map zero_bins nid f b kd.2)) as P2.
      unfold true_gain, gain_of, node_sum, left_sum in *.
      set (g := sum_if (fun kd => in_node node_map nid kd.2) (fun kd => vg kd.1) (dt_data data)) in *. set (w := sum_if (fun kd => in_node node_map nid kd.2) (fun kd => vh kd.1) (dt_data data)) in *.
      set (gl := sum_if (fun kd => below node_map zero_bins nid f b kd.2) (fun kd => vg kd.1) (dt_data data)) in *. set (wl := sum_if (fun kd => below node_map zero_bins nid f b kd.2) (fun kd => vh kd.1) (dt_data data)) in *.
      clearbody g w gl wl. clear KG KH KP.
      assert (RG : forall a a' c c', (qabs (a' - a) <= e0 -> qabs (c' - c) <= e0 -> qabs a <= zq n -> qabs c <= zq n -> qabs (fround (a' - c') - (a - c)) <= e)%Qc).
      { intros a a' c c' Q1 Q2 Q3 Q4. assert (X : (qabs (a' - c') <= zq 2 * zq n + zq 2 * e0)%Qc).
        { change (zq 2) with (Q2Qc (2 # 1)). apply qabs_le in Q1 as [], Q2 as [], Q3 as [], Q4 as []. apply qabs_le. clear - H H0 H3 H4 H5 H6 H7 H8. split; qlra. }
        apply err_rel in X. assert (Y : (qabs (fround (a' - c') - (a' - c')) <= e0)%Qc) by (eapply Qcle_trans; [exact X|exact F4]).
        unfold e. apply qabs_le in Y as [], Q1 as [], Q2 as []. apply qabs_le. clear - H H0 H3 H4 H5 H6. split; qlra. }
      assert (E3 : (e0 <= e)%Qc) by (unfold e; clear - F5; qlra).
      assert (W2 : forall q, (qabs q <= zq n)%Qc -> (qabs q <= zq 2 * zq n)%Qc) by (intros q Hq; eapply Qcle_trans; [exact Hq|]; change (zq 2) with (Q2Qc (2 # 1)); clear - NN; qlra).
      destruct (split_gain_near (zq 2 * zq n)%Qc e (reg_lambda P)) with (g := g) (h := w) (gl := gl) (hl := wl) (gr := (g - gl)%Qc) (hr := (w - wl)%Qc) (g' := tg T0) (h' := th T0) (gl' := tg t) (hl' := th t) (gr' := fround (tg T0 - tg t)%Qc) (hr' := fround (th T0 - th t)%Qc)
        as (v & Ev & Bv); auto.
      - change (zq 2) with (Q2Qc (2 # 1)). clear - NN. qlra.
      - change (zq 2) with (Q2Qc (2 # 1)). apply qabs_le in G1 as [], G2 as []. apply qabs_le. clear - H H0 H3 H4. split; qlra.
      - clear - KM. qlra.
      - eapply Qcle_trans; [exact T1|exact E3].
      - eapply Qcle_trans; [exact T2|exact E3].
      - eapply Qcle_trans; [exact C1|exact E3].
      - eapply Qcle_trans; [exact C2|exact E3].
      - exists v. split; [exact Ev|]. eapply Qcle_trans; [exact Bv|exact F6]. }
    exists s. split; [exact Es|]. destruct (si_fid s) as [f|], (si_bid s) as [b|], (si_gain s) as [x|]; try exact R.
    - destruct R as ((t & T0 & HC & _) & R1 & R2 & R3). split; [exact (proj1 (AL _ _ _ _ HC))|]. split; [exact R1|]. split; [exact R2|]. intros f' b' H'. destruct (LA f' b' H') as (t' & T0' & HC'). eauto.
    - destruct R as (R1 & R2). split; [exact R1|]. intros f' b' H'. destruct (LA f' b' H') as (t' & T0' & HC'). eauto.
  Qed.
End Rows.
