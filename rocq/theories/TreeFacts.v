(** Facts about the greedy learner of TreeSpec. *)
From Verif Require Export TreeRepr TreeLevel.
Local Open Scope nat_scope.

Lemma score_bound lam g h A D : (0 < D)%Qc -> (D <= h + lam)%Qc -> (qabs g <= A)%Qc -> (0 <= score lam g h)%Qc /\ (score lam g h <= A * A / D)%Qc.
Proof.
  intros HD HL HA. unfold score. apply qabs_le in HA as [A1 A2].
  assert (NZ : (h + lam)%Qc <> 0%Qc) by (intros X; rewrite X in HL; qlra).
  assert (ND : D <> 0%Qc) by (intros ->; qlra).
  set (q := (g * g / (h + lam))%Qc). set (B := (A * A / D)%Qc).
  assert (E1 : (q * (h + lam) = g * g)%Qc) by (unfold q; field; exact NZ).
  assert (E2 : (B * D = A * A)%Qc) by (unfold B; field; exact ND).
  clearbody q B. set (d := (h + lam)%Qc) in *. clearbody d.
  assert (Q0 : (0 <= q)%Qc).
  { destruct (Qclt_le_dec q 0) as [X|X]; [|exact X]. exfalso. assert ((q * d < 0)%Qc) by qnra. assert ((0 <= g * g)%Qc) by qnra. rewrite E1 in H. qlra. }
  split; [exact Q0|]. destruct (Qclt_le_dec B q) as [X|X]; [|exact X]. exfalso.
  assert (GA : (g * g <= A * A)%Qc) by qnra. assert ((B * D < q * D)%Qc) by qnra. assert ((q * D <= q * d)%Qc) by qnra. rewrite E1 in *. rewrite E2 in *. qlra.
Qed.

Lemma sum_if_abs {A} (S : A -> bool) (v : A -> Qc) l : (forall k, k ∈ l -> (qabs (v k) <= 1)%Qc) -> (qabs (sum_if S v l) <= zq (Z.of_nat (length l)))%Qc.
Proof.
  induction l as [|x l IH]; intros H. { rewrite sum_if_nil, qabs_zq. apply zq_le. cbn. lia. }
  rewrite sum_if_cons. eapply Qcle_trans; [apply qabs_triangle|]. cbn [length]. rewrite Nat2Z.inj_succ, <- Z.add_1_l, zq_add.
  assert (X : (qabs (if S x then v x else zq 0) <= zq 1)%Qc).
  { destruct (S x); [|rewrite qabs_zq; apply zq_le; lia]. rewrite zq_1. apply H. left. }
  specialize (IH (fun k Hk => H k (elem_of_list_further _ _ _ Hk))). qlra.
Qed.
Lemma sum_if_nonneg {A} (S : A -> bool) (v : A -> Qc) l : (forall k, k ∈ l -> (0 <= v k)%Qc) -> (0 <= sum_if S v l)%Qc.
Proof.
  induction l as [|x l IH]; intros H; [rewrite sum_if_nil, zq_0; qlra|]. rewrite sum_if_cons.
  assert (X : (0 <= if S x then v x else zq 0)%Qc) by (destruct (S x); [apply H; left|rewrite zq_0; qlra]).
  specialize (IH (fun k Hk => H k (elem_of_list_further _ _ _ Hk))). qlra.
Qed.

Section Facts.
  Context {K : Type} (U : list K) (lam mi : Qc) (guest : party K) (hosts : list (party K)) (vg vh eg eh : K -> Qc) (rnd : Qc -> Qc) (rt : Qc -> res Qc).
  Local Notation grow := (grow U lam mi guest hosts vg vh eg eh rnd rt).
  Local Notation best_split := (best_split U lam mi guest hosts vg vh eg eh rnd rt).
  Local Notation guest_best := (guest_best U lam mi guest vg vh).
  Local Notation host_best := (host_best U lam mi eg eh rnd rt).
  Local Notation goes := (goes guest hosts).

  Lemma grow_inv d S G H t : grow d S G H = Ok t -> exists w o, sweight lam G H = Ok w /\ best_split S G H = Ok o /\
    ((t = TLeaf w G H /\ (d = 0 \/ match o with Some (_, x) => qleb x (mi + FLOAT_ZERO) = true | None => True end)) \/
     exists d' c x l r, d = Datatypes.S d' /\ o = Some (c, x) /\ qleb x (mi + FLOAT_ZERO) = false /\
       grow d' (goes left_of S c) (ch_g c) (ch_h c) = Ok l /\ grow d' (goes right_of S c) (G - ch_g c)%Qc (H - ch_h c)%Qc = Ok r /\ t = TSplit w G H c x l r).
  Proof.
    destruct d as [|d]; cbn [TreeSpec.grow]; (destruct (sweight lam G H) as [w|] eqn:Ew; [|discriminate]); cbn [mbind res_bind];
      (destruct (best_split S G H) as [o|] eqn:Eo; [|discriminate]); cbn [mbind res_bind].
    - intros [= <-]. exists w, o. split; [reflexivity|]. split; [reflexivity|]. left. auto.
    - destruct o as [[c x]|]; [|intros [= <-]; exists w, None; split; [reflexivity|]; split; [reflexivity|]; left; auto]. destruct (qleb x (mi + FLOAT_ZERO)) eqn:Eq.
      + intros [= <-]. exists w, (Some (c, x)). split; [reflexivity|]. split; [reflexivity|]. left. auto.
      + destruct (grow d (goes left_of S c) _ _) as [l|] eqn:El; [|discriminate]. cbn [mbind res_bind].
        destruct (grow d (goes right_of S c) _ _) as [r|] eqn:Er; [|discriminate]. cbn [mbind res_bind]. intros [= <-].
        exists w, (Some (c, x)). split; [reflexivity|]. split; [reflexivity|]. right. exists d, c, x, l, r. repeat split; auto.
  Qed.

  Lemma grow_root d S G H t : grow d S G H = Ok t -> tG t = G /\ tH t = H.
  Proof. intros Eg. destruct (grow_inv _ _ _ _ _ Eg) as (w & o & _ & _ & [[-> _]|(d' & c & x & l & r & _ & _ & _ & _ & _ & ->)]); auto. Qed.

  Lemma sweight_ok G H w : sweight lam G H = Ok w -> (H + lam <> zq 0)%Qc /\ (w * (H + lam) = - G)%Qc.
  Proof.
    unfold sweight. destruct (decide _) as [|N]; [discriminate|]. intros [= <-].
    assert (N' : (H + lam <> zq 0)%Qc) by (intros X; apply N; rewrite <- X; ring). split; [exact N'|]. rewrite zq_0 in N. field. exact N.
  Qed.

  Lemma grow_consistent d : forall S G H t, grow d S G H = Ok t -> consistent lam t /\ tdepth t <= d.
  Proof.
    induction d as [|d IH]; intros S G H t Eg;
      destruct (grow_inv _ _ _ _ _ Eg) as (w & o & Ew & _ & [[-> _]|(d' & c & x & l & r & Ed & _ & _ & El & Er & ->)]); try discriminate;
      try (split; [split; [exact (sweight_ok _ _ _ Ew)|exact I]|cbn; lia]).
    injection Ed as <-. destruct (IH _ _ _ _ El) as [C1 D1]. destruct (IH _ _ _ _ Er) as [C2 D2].
    destruct (grow_root _ _ _ _ _ El) as [G1 H1]. destruct (grow_root _ _ _ _ _ Er) as [G2 H2]. split; [|cbn; lia].
    split; [exact (sweight_ok _ _ _ Ew)|]. cbn [tG tH]. rewrite G1, G2, H1, H2. repeat split; auto; ring.
  Qed.

  Lemma tsize_bound t : tsize t + 1 <= 2 ^ (tdepth t + 1).
  Proof.
    induction t as [|w G H c x l IHl r IHr]; [cbn; lia|]. cbn [tsize tdepth]. set (m := Nat.max (tdepth l) (tdepth r)).
    assert (A : 2 ^ (tdepth l + 1) <= 2 ^ (m + 1)) by (apply Nat.pow_le_mono_r; lia).
    assert (B : 2 ^ (tdepth r + 1) <= 2 ^ (m + 1)) by (apply Nat.pow_le_mono_r; lia).
    assert (E : 2 ^ (Datatypes.S m + 1) = 2 * 2 ^ (m + 1)) by reflexivity. lia.
  Qed.

  (** ** The winning split *)
  Lemma propose_choice own p S G H sg sh c x : propose U lam mi own p S G H sg sh = Ok (Some (c, x)) ->
    ch_own c = own /\ (ch_fid c, ch_bin c) ∈ cands U p S /\ ch_g c = sg (left_of p S (ch_fid c) (ch_bin c)) /\ ch_h c = sh (left_of p S (ch_fid c) (ch_bin c)) /\
    x = gain_of lam G H (ch_g c) (ch_h c) /\ (mi < x)%Qc.
  Proof.
    unfold propose. cbv zeta. destruct (mapR _ _) as [l|e] eqn:El; [|discriminate]. cbn [mbind res_bind]. intros [= Ef].
    pose proof (first_best_gt _ _ _ _ Ef) as Hm. apply first_best_elem, elem_of_list_lookup in Ef as (j & Hj).
    apply mapR_inv in El as [Ll Dl]. destruct (lookup_lt_is_Some_2 (cands U p S) j) as [[f b] Hfb]; [rewrite <- Ll; eapply lookup_lt_Some; eauto|].
    destruct (Dl j (f, b) Hfb) as (y & Hy & Ey). rewrite Hj in Hy. injection Hy as <-. cbn [fst snd ch_g ch_h] in Ey.
    destruct (sgain _ _ _ _ _) as [y|] eqn:Es in Ey; [|discriminate]. cbn [mbind res_bind] in Ey. injection Ey as <- <-.
    apply sgain_inv in Es as [_ ->]. cbn [ch_own ch_fid ch_bin ch_g ch_h]. repeat split; auto. eapply elem_of_list_lookup_2; eauto.
  Qed.

  Lemma best_choice S G H c x : best_split S G H = Ok (Some (c, x)) -> exists p, owner guest hosts (ch_own c) = Some p /\ (ch_fid c, ch_bin c) ∈ cands U p S /\
    match ch_own c with
    | None => ch_g c = sum_if (goes left_of S c) vg U /\ ch_h c = sum_if (goes left_of S c) vh U /\ x = gain_of lam (sum_if S vg U) (sum_if S vh U) (ch_g c) (ch_h c)
    | Some _ => ch_g c = rnd (sum_if (goes left_of S c) eg U) /\ ch_h c = rnd (sum_if (goes left_of S c) eh U) /\ rt (gain_of lam G H (ch_g c) (ch_h c)) = Ok x
    end.
  Proof.
    unfold TreeSpec.best_split. intros Hox.
    destruct (guest_best S) as [g0|e] eqn:Eg; [|discriminate]. cbn [mbind res_bind] in Hox.
    destruct (mapR _ _) as [hs|e] eqn:Ehs in Hox; [|discriminate]. cbn [mbind res_bind] in Hox. cbv zeta in Hox. injection Hox as Hox.
    destruct (mapR_inv _ _ _ Ehs) as [Lh Dh]. destruct (first_best _ (omap id hs)) as [[c' y']|] eqn:Ef.
    - injection Hox as -> ->. apply first_best_elem, elem_of_list_omap in Ef as (o' & Ho' & Eo). cbn in Eo. subst o'.
      apply elem_of_list_lookup in Ho' as (i' & Hi'). destruct (lookup_lt_is_Some_2 hosts i') as [p' Hp'].
      { apply lookup_lt_Some in Hi'. rewrite combine_length, seq_length, Nat.min_id in Lh. lia. }
      destruct (Dh i' (i', p')) as (o' & Ho' & Eo'); [exact (combine_seq_at hosts 0 i' p' Hp')|]. rewrite Hi' in Ho'. injection Ho' as <-.
      unfold TreeSpec.host_best in Eo'. destruct (propose _ _ _ _ _ _ _ _ _ _) as [[[c' x']|]|e] eqn:Epr in Eo'; cbn [mbind res_bind fst snd] in Eo'; [| |discriminate].
      + destruct (rt x') as [y|] eqn:Er; [|discriminate]. cbn in Eo'. injection Eo' as -> ->. destruct (propose_choice _ _ _ _ _ _ _ _ _ Epr) as (Po & Pc & Pg & Ph & Px & _).
        cbn [fst snd] in *. exists p'. unfold TreeSpec.goes. rewrite Po. cbn [owner]. rewrite Hp'. repeat split; auto. now rewrite <- Px.
      + destruct (rt _) in Eo'; discriminate.
    - subst g0. unfold TreeSpec.guest_best in Eg. destruct (propose_choice _ _ _ _ _ _ _ _ _ Eg) as (Po & Pc & Pg & Ph & Px & _).
      exists guest. unfold TreeSpec.goes. rewrite Po. cbn [owner]. repeat split; auto.
  Qed.

  Lemma goes_sum S c p v : owner guest hosts (ch_own c) = Some p -> sum_if S v U = (sum_if (goes left_of S c) v U + sum_if (goes right_of S c) v U)%Qc.
  Proof.
    intros Ho. apply sum_if_split. intros k _. unfold TreeSpec.goes. rewrite Ho. unfold left_of, right_of. destruct (S k), (_ <=? _); auto.
  Qed.

  (** ** Errors of the sums, and totality *)
  Section Total.
    Context (eta D : Qc) (Heta : (0 <= eta)%Qc) (HD : (0 <= D)%Qc).
    Context (HG : forall L : K -> bool, (qabs (rnd (sum_if L eg U) - sum_if L vg U) <= eta)%Qc).
    Context (HH : forall L : K -> bool, (qabs (rnd (sum_if L eh U) - sum_if L vh U) <= eta)%Qc).

    Lemma choice_near S G H c x : best_split S G H = Ok (Some (c, x)) -> exists p, owner guest hosts (ch_own c) = Some p /\
      (qabs (ch_g c - sum_if (goes left_of S c) vg U) <= eta)%Qc /\ (qabs (ch_h c - sum_if (goes left_of S c) vh U) <= eta)%Qc.
    Proof.
      intros Hb. destruct (best_choice _ _ _ _ _ Hb) as (p & Ho & _ & Hc). exists p. split; [exact Ho|].
      destruct (ch_own c) as [i|]; destruct Hc as (-> & -> & _); [split; [apply HG|apply HH]|].
      split; apply qabs_le; split; qlra.
    Qed.

    Lemma grow_near d : forall S G H t e, grow d S G H = Ok t -> (qabs (G - sum_if S vg U) <= e)%Qc -> (qabs (H - sum_if S vh U) <= e)%Qc ->
      (e + zq (Z.of_nat d) * eta <= D)%Qc -> near U guest hosts vg vh D t S.
    Proof.
      induction d as [|d IH]; intros S G H t e Eg EG EH ED; destruct (grow_root _ _ _ _ _ Eg) as [TG TH];
        destruct (grow_inv _ _ _ _ _ Eg) as (w & o & _ & Eo & [[-> _]|(d' & c & x & l & r & Ed & -> & _ & El & Er & ->)]); try discriminate.
      - cbn [near tG tH]. change (zq (Z.of_nat 0)) with (zq 0) in ED. rewrite zq_0 in ED. repeat split; eapply Qcle_trans; eauto; qlra.
      - cbn [near tG tH]. assert ((0 <= zq (Z.of_nat (Datatypes.S d)))%Qc) by (rewrite <- zq_0; apply zq_le; lia). repeat split; eapply Qcle_trans; eauto; qnra.
      - injection Ed as <-. destruct (choice_near _ _ _ _ _ Eo) as (p & Ho & Cg & Ch).
        assert (Z1 : (zq (Z.of_nat (Datatypes.S d)) = zq (Z.of_nat d) + 1)%Qc) by (rewrite Nat2Z.inj_succ, <- Z.add_1_r, zq_add, zq_1; reflexivity). rewrite Z1 in ED.
        assert ((0 <= zq (Z.of_nat d))%Qc) by (rewrite <- zq_0; apply zq_le; lia).
        assert (0 <= zq (Z.of_nat d) * eta)%Qc by qnra. assert (E0 : (0 <= e)%Qc) by (eapply Qcle_trans; [apply qabs_nonneg|exact EG]).
        cbn [near tG tH]. split; [eapply Qcle_trans; [exact EG|qlra]|]. split; [eapply Qcle_trans; [exact EH|qlra]|]. split.
        + apply (IH _ _ _ _ eta El Cg Ch). qlra.
        + pose proof (goes_sum S c p vg Ho) as SG. pose proof (goes_sum S c p vh Ho) as SH. apply qabs_le in EG, EH, Cg, Ch.
          apply (IH _ _ _ _ (e + eta)%Qc Er); [apply qabs_le; split; qlra..|qlra].
    Qed.

    Context (B : Qc) (V1 : forall L : K -> bool, (qabs (sum_if L vg U) <= B)%Qc) (V2 : forall k, k ∈ U -> (0 <= vh k)%Qc) (LD : (D < lam)%Qc).
    Local Notation A := (B + D)%Qc.
    Context (RT : forall x, (qabs x <= (1 + 1) * (A * A / (lam - D)))%Qc -> exists y, rt x = Ok y) (RM : exists y, rt (mi - FLOAT_ZERO)%Qc = Ok y).

    Lemma sgain_ok S L G H gl hl e e' : (forall k, L k = true -> S k = true) -> (qabs (G - sum_if S vg U) <= e)%Qc -> (qabs (H - sum_if S vh U) <= e)%Qc ->
      (qabs (gl - sum_if L vg U) <= e')%Qc -> (qabs (hl - sum_if L vh U) <= e')%Qc -> (e + e' <= D)%Qc -> (0 <= e)%Qc -> (0 <= e')%Qc ->
      exists x, sgain lam G H gl hl = Ok x /\ (qabs x <= (1 + 1) * (A * A / (lam - D)))%Qc.
    Proof.
      intros LS EG EH Eg Eh ED E0 E0'. set (R := fun k => S k && negb (L k)).
      assert (SP : forall v, sum_if S v U = (sum_if L v U + sum_if R v U)%Qc).
      { intros v. apply sum_if_split. intros k _. unfold R. specialize (LS k). destruct (L k), (S k); auto; specialize (LS eq_refl); discriminate. }
      pose proof (SP vg) as SG. pose proof (SP vh) as SH.
      pose proof (V1 S) as AS. pose proof (V1 L) as AL. pose proof (V1 R) as AR.
      pose proof (sum_if_nonneg S vh U V2) as NS. pose proof (sum_if_nonneg L vh U V2) as NL. pose proof (sum_if_nonneg R vh U V2) as NR.
      apply qabs_le in EG, EH, Eg, Eh, AS, AL, AR.
      assert (D0 : (0 < lam - D)%Qc) by qlra.
      destruct (score_bound lam gl hl (B + D) (lam - D) D0) as [B1 B2]; [qlra|apply qabs_le; split; qlra|].
      destruct (score_bound lam (G - gl) (H - hl) (B + D) (lam - D) D0) as [B3 B4]; [qlra|apply qabs_le; split; qlra|].
      destruct (score_bound lam G H (B + D) (lam - D) D0) as [B5 B6]; [qlra|apply qabs_le; split; qlra|].
      exists (gain_of lam G H gl hl). split.
      - unfold sgain. replace (no_zero_dec lam H hl) with true; [reflexivity|]. unfold no_zero_dec. rewrite zq_0.
        rewrite !bool_decide_eq_false_2; [reflexivity|intros X; qlra..].
      - unfold gain_of. set (s1 := score _ _ _) in *. set (s2 := score _ (G - gl) _) in *. set (s3 := score _ G _) in *. set (M := ((B + D) * (B + D) / (lam - D))%Qc) in *.
        clearbody s1 s2 s3 M. apply qabs_le. split; qlra.
    Qed.

    Lemma propose_ok own p S G H sg sh e e' : (qabs (G - sum_if S vg U) <= e)%Qc -> (qabs (H - sum_if S vh U) <= e)%Qc ->
      (forall L, (qabs (sg L - sum_if L vg U) <= e')%Qc) -> (forall L, (qabs (sh L - sum_if L vh U) <= e')%Qc) -> (e + e' <= D)%Qc -> (0 <= e)%Qc -> (0 <= e')%Qc ->
      exists o, propose U lam mi own p S G H sg sh = Ok o /\ match o with Some (_, x) => (qabs x <= (1 + 1) * (A * A / (lam - D)))%Qc | None => True end.
    Proof.
      intros EG EH Eg Eh ED E0 E0'. unfold propose. cbv zeta. cbn [ch_g ch_h].
      assert (X : forall fb : nat * nat, exists x, sgain lam G H (sg (left_of p S fb.1 fb.2)) (sh (left_of p S fb.1 fb.2)) = Ok x /\ (qabs x <= (1 + 1) * (A * A / (lam - D)))%Qc).
      { intros fb. apply (sgain_ok S (left_of p S fb.1 fb.2) G H _ _ e e'); auto. intros k. unfold left_of. intros Hk. now apply andb_true_iff in Hk as [Hk _]. }
      set (f := fun fb : nat * nat => _). assert (exists l, mapR f (cands U p S) = Ok l) as (l & El).
      { induction (cands U p S) as [|fb l IH]; [exists []; reflexivity|]. destruct IH as (l' & El'). cbn [mapR]. unfold f at 1. destruct (X fb) as (x & Ex & _).
        rewrite Ex. cbn [mbind res_bind]. rewrite El'. cbn. eauto. }
      rewrite El. cbn [mbind res_bind]. eexists. split; [reflexivity|].
      destruct (first_best mi l) as [[c x]|] eqn:Ef; [|exact I]. apply first_best_elem, elem_of_list_lookup in Ef as (j & Hj).
      apply mapR_inv in El as [Ll Dl]. destruct (lookup_lt_is_Some_2 (cands U p S) j) as [fb Hfb]; [rewrite <- Ll; eapply lookup_lt_Some; eauto|].
      destruct (Dl j fb Hfb) as (y & Hy & Ey). rewrite Hj in Hy. injection Hy as <-. unfold f in Ey. destruct (X fb) as (x' & Ex & Bx). rewrite Ex in Ey. cbn [mbind res_bind] in Ey.
      injection Ey as _ <-. exact Bx.
    Qed.

    Lemma best_total S G H e : (qabs (G - sum_if S vg U) <= e)%Qc -> (qabs (H - sum_if S vh U) <= e)%Qc -> (e + eta <= D)%Qc -> (0 <= e)%Qc -> exists o, best_split S G H = Ok o.
    Proof.
      intros EG EH ED E0. unfold TreeSpec.best_split, TreeSpec.guest_best.
      assert (Z : forall x : Qc, (qabs (x - x) <= 0)%Qc) by (intros x; apply qabs_le; split; qlra).
      destruct (propose_ok None guest S (sum_if S vg U) (sum_if S vh U) (fun L => sum_if L vg U) (fun L => sum_if L vh U) 0%Qc 0%Qc) as (g & Eg & _);
        try (intros; apply Z); try qlra. rewrite Eg. cbn [mbind res_bind].
      set (f := TreeSpec.host_best _ _ _ _ _ _ _ _ _ _). assert (forall l, exists hs, mapR f l = Ok hs) as X.
      { induction l as [|ip l (hs & IH)]; [exists []; reflexivity|]. cbn [mapR]. unfold f at 1, TreeSpec.host_best.
        destruct (propose_ok (Some ip.1) ip.2 S G H (fun L => rnd (sum_if L eg U)) (fun L => rnd (sum_if L eh U)) e eta) as (o & Eo & Bo); auto.
        rewrite Eo. cbn [mbind res_bind]. destruct o as [[c x]|].
        - destruct (RT x Bo) as (y & ->). cbn [mbind res_bind]. rewrite IH. cbn. eauto.
        - destruct RM as (y & ->). cbn [mbind res_bind]. rewrite IH. cbn. eauto. }
      destruct (X (combine (seq 0 (length hosts)) hosts)) as (hs & Ehs). rewrite Ehs. cbn [mbind res_bind]. eauto.
    Qed.

    Lemma grow_total d : forall S G H e, (qabs (G - sum_if S vg U) <= e)%Qc -> (qabs (H - sum_if S vh U) <= e)%Qc ->
      (e + (zq (Z.of_nat d) + 1) * eta <= D)%Qc -> exists t, grow d S G H = Ok t.
    Proof.
      induction d as [|d IH]; intros S G H e EG EH ED; assert (E0 : (0 <= e)%Qc) by (eapply Qcle_trans; [apply qabs_nonneg|exact EG]).
      all: assert (W : exists w, sweight lam G H = Ok w).
      1,3: unfold sweight; destruct (decide _) as [X|]; [exfalso|eauto]; pose proof (sum_if_nonneg S vh U V2) as NS; apply qabs_le in EH; rewrite zq_0 in X.
      1: { change (zq (Z.of_nat 0)) with (zq 0) in ED. rewrite zq_0 in ED. qlra. }
      1: { assert ((0 <= zq (Z.of_nat (Datatypes.S d)))%Qc) by (rewrite <- zq_0; apply zq_le; lia). assert ((0 <= (zq (Z.of_nat (Datatypes.S d)) + 1) * eta)%Qc) by qnra. qlra. }
      all: destruct W as (w & Ew); cbn [TreeSpec.grow]; rewrite Ew; cbn [mbind res_bind].
      - change (zq (Z.of_nat 0)) with (zq 0) in ED. rewrite zq_0 in ED. destruct (best_total S G H e EG EH) as (o & ->); [qlra|exact E0|]. cbn. eauto.
      - assert (Z1 : (zq (Z.of_nat (Datatypes.S d)) = zq (Z.of_nat d) + 1)%Qc) by (rewrite Nat2Z.inj_succ, <- Z.add_1_r, zq_add, zq_1; reflexivity). rewrite Z1 in ED.
        assert ((0 <= zq (Z.of_nat d))%Qc) by (rewrite <- zq_0; apply zq_le; lia). assert (0 <= zq (Z.of_nat d) * eta)%Qc by qnra.
        destruct (best_total S G H e EG EH) as (o & Eo); [qlra|exact E0|]. rewrite Eo. cbn [mbind res_bind]. destruct o as [[c x]|]; [|eauto].
        destruct (qleb x (mi + FLOAT_ZERO)); [eauto|]. destruct (choice_near _ _ _ _ _ Eo) as (p & Ho & Cg & Ch).
        destruct (IH (goes left_of S c) (ch_g c) (ch_h c) eta Cg Ch) as (l & ->); [qlra|]. cbn [mbind res_bind].
        pose proof (goes_sum S c p vg Ho) as SG. pose proof (goes_sum S c p vh Ho) as SH. apply qabs_le in EG, EH, Cg, Ch.
        destruct (IH (goes right_of S c) (G - ch_g c)%Qc (H - ch_h c)%Qc (e + eta)%Qc) as (r & ->); [apply qabs_le; split; qlra..|qlra|]. cbn. eauto.
    Qed.
  End Total.
End Facts.

(** ** The winning split gains as much as any candidate of any party, up to FLOAT_ZERO *)
Lemma propose_all {K} (U : list K) lam mi own p S G H sg sh o : propose U lam mi own p S G H sg sh = Ok o -> forall f b, (f, b) ∈ cands U p S ->
  (gain_of lam G H (sg (left_of p S f b)) (sh (left_of p S f b)) <= match o with Some (_, x) => x | None => mi end)%Qc.
Proof.
  unfold propose. cbv zeta. destruct (mapR _ _) as [l|e] eqn:El; [|discriminate]. cbn [mbind res_bind]. intros [= <-] f b Hfb.
  apply elem_of_list_lookup in Hfb as (j & Hj). apply mapR_inv in El as [Ll Dl]. destruct (Dl j _ Hj) as (y & Hy & Ey). cbn [fst snd ch_g ch_h] in Ey.
  destruct (sgain _ _ _ _ _) as [y'|] eqn:Es in Ey; [|discriminate]. cbn [mbind res_bind] in Ey. injection Ey as <-. apply sgain_inv in Es as [_ ->].
  pose proof (first_best_spec mi l) as FB. destruct (first_best mi l) as [[c x]|]; [destruct FB as (_ & i & _ & D); apply (D _ _ _ Hy)|exact (FB _ _ _ Hy)].
Qed.

Lemma best_optimal {K} (U : list K) lam mi guest hosts vg vh S o :
  best_split U lam mi guest hosts vg vh vg vh (fun x => x) Ok S (sum_if S vg U) (sum_if S vh U) = Ok o ->
  forall own p f b, owner guest hosts own = Some p -> (f, b) ∈ cands U p S ->
  (gain_of lam (sum_if S vg U) (sum_if S vh U) (sum_if (left_of p S f b) vg U) (sum_if (left_of p S f b) vh U) <= match o with Some (_, x) => x + FLOAT_ZERO | None => mi end)%Qc.
Proof.
  pose proof FLOAT_ZERO_pos as FZ. rewrite zq_0 in FZ.
  unfold best_split. destruct (guest_best _ _ _ _ _ _ _) as [g|] eqn:Eg; [|discriminate]. cbn [mbind res_bind].
  destruct (mapR _ _) as [hs|] eqn:Eh; [|discriminate]. cbn [mbind res_bind]. cbv zeta. intros [= <-] own p f b Ho Hfb.
  set (gg := match g with Some (_, x) => x | None => (mi - FLOAT_ZERO)%Qc end). set (v := gain_of _ _ _ _ _).
  pose proof (first_best_spec (gg + FLOAT_ZERO)%Qc (omap id hs)) as FB.
  destruct own as [i|]; cbn [owner] in Ho.
  - apply mapR_inv in Eh as [Lh Dh]. destruct (Dh i (i, p)) as (o & Hi & Eo); [exact (combine_seq_at hosts 0 i p Ho)|].
    unfold host_best in Eo. cbn [fst snd] in Eo. destruct (propose _ _ _ _ _ _ _ _ _ _) as [o0|] eqn:Ep; [|discriminate]. cbn [mbind res_bind] in Eo.
    pose proof (propose_all _ _ _ _ _ _ _ _ _ _ _ Ep f b Hfb) as V. cbv beta in V. fold v in V. clearbody v. destruct o0 as [[c x]|]; cbn [mbind res_bind] in Eo; injection Eo as <-.
    + pose proof (propose_choice _ _ _ _ _ _ _ _ _ _ _ _ Ep) as (_ & _ & _ & _ & _ & Vm).
      assert (E : (c, x) ∈ omap id hs) by (apply elem_of_list_omap; exists (Some (c, x)); split; [eapply elem_of_list_lookup_2; eauto|reflexivity]).
      apply elem_of_list_lookup in E as (j & Hj). destruct (first_best _ (omap id hs)) as [[c' x']|].
      * destruct FB as (_ & i' & _ & D). destruct (D _ _ _ Hj) as [D1 _]. qlra.
      * specialize (FB _ _ _ Hj). unfold gg in FB. destruct g as [[c' x']|]; qlra.
    + destruct (first_best _ (omap id hs)) as [[c' x']|].
      * destruct FB as (B & _). unfold gg in B. destruct g as [[c0 x0]|]; [|qlra].
        unfold guest_best in Eg. pose proof (propose_choice _ _ _ _ _ _ _ _ _ _ _ _ Eg) as (_ & _ & _ & _ & _ & Vm). qlra.
      * destruct g as [[c0 x0]|]; [|exact V]. unfold guest_best in Eg. pose proof (propose_choice _ _ _ _ _ _ _ _ _ _ _ _ Eg) as (_ & _ & _ & _ & _ & Vm). qlra.
  - injection Ho as <-. unfold guest_best in Eg. pose proof (propose_all _ _ _ _ _ _ _ _ _ _ _ Eg f b Hfb) as V. cbv beta in V. fold v in V. clearbody v.
    destruct (first_best _ (omap id hs)) as [[c' x']|]; [destruct FB as (B & _); unfold gg in B|]; destruct g as [[c0 x0]|]; qlra.
Qed.

(** ** Every entry of the list is a node of the tree *)
Lemma repr_all name T M lam t : repr name T M 0 t -> consistent lam t -> flat_map children T = seq 1 (length T - 1) ->
  (forall j nd, T !! j = Some nd -> n_id nd = j) -> (forall nd c, nd ∈ T -> c ∈ children nd -> n_id nd < c) ->
  forall j, j < length T -> exists t', repr name T M j t' /\ consistent lam t'.
Proof.
  intros R0 C0 CH IDS LT j. induction j as [j IH] using lt_wf_ind. intros Hj. destruct (decide (j = 0)) as [->|NZ]; [eauto|].
  assert (IN : j ∈ flat_map children T) by (rewrite CH; apply elem_of_list_In, in_seq; lia).
  apply elem_of_list_In, in_flat_map in IN as (nd & Hn & Hc). apply elem_of_list_In in Hn. apply elem_of_list_In in Hc.
  pose proof (LT nd j Hn Hc) as Lt. apply elem_of_list_lookup in Hn as (i & Hi). rewrite (IDS _ _ Hi) in Lt.
  destruct (IH i Lt ltac:(lia)) as (t' & R' & C'). destruct R' as [id w G H E|id w G H c g l r li ri E Mm L1 L2 Rl Rr].
  - rewrite Hi in E. injection E as ->. inversion Hc.
  - rewrite Hi in E. injection E as ->. cbn in Hc, C'. destruct C' as (_ & _ & _ & Cl & Cr). apply elem_of_cons in Hc as [->|Hc]; [eauto|].
    apply elem_of_list_singleton in Hc as ->. eauto.
Qed.

Lemma repr_node name T M id t : repr name T M id t -> exists nd, T !! id = Some nd /\ n_grad nd = tG t /\ n_hess nd = tH t /\ n_weight nd = tw t /\
  match t with TLeaf _ _ _ => n_leaf nd = true /\ n_left nd = None /\ n_right nd = None
  | TSplit _ _ _ c _ l r => n_leaf nd = false /\ n_site nd = name (ch_own c) /\ n_fid nd = Some (ch_fid c) /\ M (ch_own c) id (ch_fid c) (ch_bin c) /\
      exists li ri, n_left nd = Some li /\ n_right nd = Some ri /\ id < li /\ id < ri /\ repr name T M li l /\ repr name T M ri r end.
Proof.
  intros R. destruct R as [id w G H E|id w G H c g l r li ri E Mm L1 L2 Rl Rr]; eexists; (split; [exact E|]); cbn; repeat (split; [reflexivity|]).
  - auto.
  - split; [exact Mm|]. exists li, ri. auto 10.
Qed.

Lemma repr_wf name T M lam t : repr name T M 0 t -> consistent lam t -> flat_map children T = seq 1 (length T - 1) ->
  (forall j nd, T !! j = Some nd -> n_id nd = j) -> (forall nd c, nd ∈ T -> c ∈ children nd -> n_id nd < c) -> well_formed lam T.
Proof.
  intros R0 C0 CH IDS LT.
  assert (N : forall nd, nd ∈ T -> exists t', repr name T M (n_id nd) t' /\ consistent lam t' /\ T !! n_id nd = Some nd).
  { intros nd Hn. apply elem_of_list_lookup in Hn as (i & Hi). rewrite (IDS _ _ Hi). destruct (repr_all name T M lam t R0 C0 CH IDS LT i) as (t' & R' & C'); [eapply lookup_lt_Some; eauto|]. eauto. }
  split; [exact IDS|exact CH| | |].
  - intros nd Hn. destruct (N nd Hn) as (t' & R' & C' & L). destruct (repr_node _ _ _ _ _ R') as (nd' & L' & E1 & E2 & E3 & _). rewrite L in L'. injection L' as <-.
    rewrite E1, E2, E3. destruct t'; apply C'.
  - intros nd Hn Hl. destruct (N nd Hn) as (t' & R' & C' & L). destruct (repr_node _ _ _ _ _ R') as (nd' & L' & _ & _ & _ & X). rewrite L in L'. injection L' as <-.
    destruct t'; [tauto|]. destruct X as (X & _). congruence.
  - intros nd Hn Hl. destruct (N nd Hn) as (t' & R' & C' & L). destruct (repr_node _ _ _ _ _ R') as (nd' & L' & E1 & E2 & _ & X). rewrite L in L'. injection L' as <-.
    destruct t' as [|w G H c g l r]; [destruct X as (X & _); congruence|]. destruct X as (_ & _ & _ & _ & li & ri & X1 & X2 & X3 & X4 & Rl & Rr).
    destruct (repr_node _ _ _ _ _ Rl) as (a & La & A1 & A2 & _). destruct (repr_node _ _ _ _ _ Rr) as (b & Lb & B1 & B2 & _).
    exists li, ri, a, b. rewrite E1, E2, A1, A2, B1, B2. destruct C' as (_ & C1 & C2 & _). auto 10.
Qed.
