(** Training without a federation: the tree that one party grows on its own columns. *)
From Verif Require Import HistPaillier.
From Verif Require Export LocalModel BoostMain.
Local Open Scope nat_scope.

(** What the party needs before training a tree. *)
Record alone_ok {K} `{EqDecision K} (U : list K) (cfg : pcfg K) (me : party K) (gh : dtable K (Qc * Qc)) (vg vh : K -> Qc) : Prop := {
  al_rows : NoDup U /\ U <> [];
  al_party : party_ok U cfg me;
  al_leaf : (1 <= p_min_leaf me)%Z;
  al_step : c_step cfg <> 0;
  al_size : (3 * Z.of_nat (length U) <= 2 ^ 53)%Z;
  al_gh : dt_wf gh /\ (forall k, k ∈ dt_keys gh <-> k ∈ U) /\ forall k c, (k, c) ∈ dt_data gh -> c = (vg k, vh k) }.

Lemma local_merge_id own : local_merge own = Ok own.
Proof. unfold local_merge. rewrite mapR_map. unfold local_best. induction own as [|o own IH]; [reflexivity|]. cbn in *. now rewrite IH. Qed.

(** Site names do not matter: no host takes part. *)
Definition noname : nat -> site := fun i => HostSite (Z.of_nat i).

Section One.
  Context {K : Type} `{EqDecision K} (U : list K) (cfg : pcfg K) (me : party K) (gh : dtable K (Qc * Qc)) (vg vh : K -> Qc) (it : imp_type).
  Context (Hit : it <> IOther) (AL : alone_ok U cfg me gh vg vh).
  Local Notation lam := (reg_lambda (c_par cfg)).
  Local Notation mi := (min_impurity (c_par cfg)).
  Local Notation hcfg := (fun _ : nat => cfg).
  Local Notation RK := (fun (c : Qc) (_ : Z) (q : Qc) => c = q).
  Local Notation gen := (fun (_ _ : nat) (x : Qc) => Ok x).
  Local Notation split_at := (split_at U cfg me [] vg vh vg vh (fun x => x) Ok).
  Local Notation to_si := (to_si cfg noname).
  Local Notation grown := (grown U cfg me [] vg vh vg vh (fun x => x) Ok).
  Local Notation lev_inv := (lev_inv U 0 cfg me [] vg vh vg vh (fun x => x) Ok).
  Local Notation lev_post := (lev_post U 0 cfg hcfg me [] noname it).
  Local Notation learn := (learn U lam mi me [] vg vh vg vh (fun x => x) Ok).
  Local Notation fit_post := (fit_post U 0 cfg hcfg me [] noname it).

  Lemma alone_train : TreeBatch.train_ok (C := Qc) (E := Qc) U 0 cfg hcfg me [] noname gh gh vg vh vg vh RK Ok Ok gen (fun x => x) Ok.
  Proof.
    destruct AL as [[P1 P1'] P3 P5 P8 P10 P11]. split; try (intros; lia); auto.
    - intros i p Hi. now rewrite lookup_nil in Hi.
    - intros i p Hi. now rewrite lookup_nil in Hi.
    - destruct P11 as (A & B & D). split; [exact A|]. split; [exact B|]. intros k c Hc. now rewrite (D k c Hc).
    - intros c L q -> _. reflexivity.
    - intros i nid x y [= ->]. eauto.
    - intros x y [= ->]. pose proof FLOAT_ZERO_pos as FZ. rewrite zq_0 in FZ. qlra.
  Qed.
  Local Notation TR := alone_train.
  Local Notation ND := (proj1 (al_rows _ _ _ _ _ _ AL)).

  Lemma split_alone (x : @info K) : split_at x = guest_best U lam mi me vg vh (i_S x).
  Proof. unfold TreeBatch.split_at, TreeSpec.best_split. cbn. destruct (guest_best _ _ _ _ _ _ _) as [[g|]|e]; reflexivity. Qed.

  Lemma local_batch_ok pos (q infs : list (@info K)) (cur : list node) os dbn : 
    pos_ok U pos (map idS q) -> Forall2 (qnode cfg) cur infs -> (forall x, x ∈ infs -> x ∈ q) -> NoDup (map i_id infs) -> infs <> [] ->
    Forall2 (fun x o => split_at x = Ok o) infs os -> with_positions (c_data cfg) pos = Ok dbn ->
    forall acc, local_batch cfg gh dbn acc cur = Ok (acc ++ map to_si os).
  Proof.
    intros PO QN Sub NDi NE BS Edbn acc. pose proof (qnode_ids _ _ _ QN) as IDS.
    assert (KEYS : (map idS infs).*1 = map i_id infs) by (rewrite <- list_fmap_compose; reflexivity).
    assert (SUB' : forall x, x ∈ map idS infs -> x ∈ map idS q).
    { intros x Hx. apply elem_of_list_fmap in Hx as (y & -> & Hy). apply (elem_of_list_fmap_1 idS). auto. }
    assert (NE' : map idS infs <> []) by (destruct infs; [easy|discriminate]).
    assert (SS : map snd (map idS infs) = map i_S infs) by (rewrite map_map; reflexivity).
    destruct (al_gh _ _ _ _ _ _ AL) as (Wgh & Kgh & Vgh).
    destruct (node_hists U ND cfg me (al_party _ _ _ _ _ _ AL) qops RK qops_laws vg vh gh Wgh (fun k Hk => proj2 (Kgh k) Hk)
      ltac:(intros k c Hc; rewrite (Vgh k c Hc); auto) pos (map idS q) (map idS infs) dbn PO SUB' ltac:(now rewrite KEYS) NE' Edbn) as (hg & Ehg & Fhg).
    rewrite KEYS, <- IDS in Ehg. rewrite SS in Fhg.
    pose proof (Forall2_length _ _ _ BS) as LBS. pose proof (Forall2_length _ _ _ Fhg) as LFh. rewrite map_length in LFh.
    assert (EG : find_split (c_par cfg) (c_valid cfg) hg = Ok (map to_si os)).
    { unfold find_split. apply mapR_pointwise; [rewrite map_length; lia|]. intros j hj s Hj Hs. rewrite map_lookup in Hs.
      destruct (os !! j) as [g|] eqn:Eg; [|discriminate]. cbn in Hs. injection Hs as <-.
      destruct (Forall2_lookup_l _ _ _ _ _ Fhg Hj) as (S0 & HS0 & NH). rewrite map_lookup in HS0.
      destruct (infs !! j) as [x|] eqn:Ex; [|discriminate]. cbn in HS0. injection HS0 as <-.
      destruct (Forall2_lookup_l _ _ _ _ _ BS Ex) as (g' & Hg' & Eg'). rewrite Eg in Hg'. injection Hg' as <-. rewrite split_alone in Eg'.
      exact (guest_node U 0 cfg hcfg me [] noname gh gh vg vh vg vh RK Ok Ok gen (fun x => x) Ok TR _ _ _ NH Eg'). }
    unfold local_batch. rewrite Ehg. cbn [mbind res_bind]. rewrite EG. cbn [mbind res_bind]. rewrite local_merge_id. reflexivity.
  Qed.

  Lemma local_batches pos (infs : list (@info K)) (queue : list node) os dbn :
    pos_ok U pos (map idS infs) -> Forall2 (qnode cfg) queue infs -> NoDup (map i_id infs) -> Forall2 (fun x o => split_at x = Ok o) infs os ->
    with_positions (c_data cfg) pos = Ok dbn -> exists bs, batches (c_step cfg) queue = Ok bs /\ foldM (local_batch cfg gh dbn) [] bs = Ok (map to_si os).
  Proof.
    intros PO QN NDi BS Ed. pose proof (al_step _ _ _ _ _ _ AL) as Hst.
    exists (chunks (length queue) (c_step cfg) queue). destruct (chunks_concat (c_step cfg) (length queue) queue Hst (le_n _)) as [CC CN].
    split; [unfold batches; destruct (c_step cfg); [easy|reflexivity]|].
    set (bs := chunks (length queue) (c_step cfg) queue) in *. clearbody bs.
    assert (G : forall rest done, bs = done ++ rest -> foldM (local_batch cfg gh dbn) (map to_si (take (length (concat done)) os)) rest = Ok (map to_si os)).
    { induction rest as [|x rest IH]; intros done El.
      - cbn [foldM]. rewrite app_nil_r in El. subst done. rewrite CC. pose proof (Forall2_length _ _ _ QN). pose proof (Forall2_length _ _ _ BS). now rewrite take_ge by lia.
      - set (n := length (concat done)) in *.
        assert (EQ : queue = concat done ++ x ++ concat rest) by (rewrite <- CC, El, concat_app; reflexivity).
        set (infc := take (length x) (drop n infs)). set (osc := take (length x) (drop n os)).
        assert (EX : take (length x) (drop n queue) = x).
        { rewrite EQ. unfold n. rewrite drop_app_alt by reflexivity. apply take_app. }
        assert (QX : Forall2 (qnode cfg) x infc) by (rewrite <- EX at 1; apply Forall2_take, Forall2_drop; exact QN).
        assert (BX : Forall2 (fun x o => split_at x = Ok o) infc osc) by (apply Forall2_take, Forall2_drop; exact BS).
        assert (SUB : forall y, y ∈ infc -> y ∈ infs).
        { intros y Hy. unfold infc in Hy. rewrite <- (take_drop n infs), <- (take_drop (length x) (drop n infs)). apply elem_of_app. right. apply elem_of_app. now left. }
        assert (NDc : NoDup (map i_id infc)).
        { rewrite <- (take_drop n infs), <- (take_drop (length x) (drop n infs)) in NDi. fold infc in NDi. rewrite !map_app in NDi.
          apply NoDup_app in NDi as (_ & _ & NDi). now apply NoDup_app in NDi as (NDi & _). }
        assert (NEx : x <> []).
        { rewrite El in CN. apply Forall_app in CN as [_ CN]. now apply Forall_cons in CN as [CN _]. }
        assert (NEc : infc <> []) by (intros X; rewrite X in QX; inversion QX; subst; contradiction).
        cbn [foldM]. rewrite (local_batch_ok pos infs infc x osc dbn PO QX SUB NDc NEc BX Ed). cbn [mbind res_bind].
        rewrite <- map_app. unfold osc. rewrite take_take_drop. rewrite <- (IH (done ++ [x])) by (rewrite <- app_assoc; exact El).
        rewrite concat_app, app_length. cbn [concat]. rewrite app_nil_r. reflexivity. }
    exact (G bs [] eq_refl).
  Qed.

  Lemma local_levels_ok d : forall l queue st pos masks, lev_inv d l queue st pos masks -> exists st' masks',
    local_levels cfg it gh (Datatypes.S d) st queue pos = Ok st' /\ lev_post l st masks st' masks'.
  Proof.
    induction d as [d IHd] using lt_wf_ind. intros l queue st pos masks V.
    pose proof (Forall2_length _ _ _ (v_queue _ _ _ _ _ _ _ _ _ _ _ _ _ _ _ _ _ V)) as LQ. rewrite map_length in LQ.
    destruct queue as [|q0 queue0] eqn:Equeue.
    { destruct l; [|discriminate]. exists st, masks. split; [reflexivity|].
      eapply lev_done. exact V. }
    rewrite <- Equeue in *. assert (NEl : l <> []) by (intros ->; subst queue; discriminate).
    destruct st as [T mk num w imp]. pose proof V as [IDS NUM QN PO GR NDg NDm WFw FREE]. cbn [t_nodes t_mask t_num t_weights t_imp] in *.
    set (l3 := number num l).
    destruct (grown_splits U cfg me [] vg vh vg vh (fun x => x) Ok d l GR) as (os & BS & OSP).
    destruct (with_positions_ok U cfg pos _ PO) as (dbn & Edbn & _).
    assert (NDids : NoDup (map i_id (map fst l))).
    { rewrite map_map. change (NoDup (map iid l)). rewrite IDS. apply NoDup_ListNoDup, seq_NoDup. }
    destruct (local_batches pos (map fst l) queue os dbn PO QN NDids BS Edbn) as (bs & Ebs & EB).
    destruct (update_queue_ok U 0 cfg hcfg me [] noname gh gh vg vh vg vh RK Ok Ok gen (fun x => x) Ok TR it d l Hit GR queue os [] T mk num w imp [] QN BS) as (qnew & EU & QN').
    cbn [length app] in EU. fold (update_queue (c_par cfg) it (match d with 0 => true | _ => false end) (map to_si os) (GState T mk num w imp) queue) in EU.
    fold l3 in EU, QN'.
    destruct (redispatch_local_ok U 0 cfg hcfg me [] noname gh gh vg vh vg vh RK Ok Ok gen (fun x => x) Ok TR d num l T pos IDS PO GR mk (num + length (kids me [] l3)) w
      (fold_left add_imp (flat_map (incs noname it) l3) imp) dbn WFw Edbn) as (to_host & r2 & w' & ERL & Wth & W2 & Ww' & Gth & G2 & Gw').
    fold l3 in ERL, Gth, G2, Gw'.
    assert (Gpos : forall k v, tget r2 k = Some v <-> target U me [] num l k v).
    { intros k v. rewrite G2. fold l3. unfold target, gdisp. split.
      - intros (e & He & -> & H1 & H2). destruct (e.1.2) as [|w0 G0 H0 c g t1 t2] eqn:Et; [discriminate|].
        destruct (item_good U 0 cfg hcfg me [] noname gh gh vg vh vg vh RK Ok Ok gen (fun x => x) Ok TR d num l GR e _ _ _ _ _ _ _ (proj1 He) Et) as (p & pts & _ & _ & _ & _ & HO).
        destruct (ch_own c) as [i|]; [lia|]. exists e, w0, G0, H0, c, g, t1, t2. auto.
      - intros (e & w0 & G0 & H0 & c & g & t1 & t2 & He & Et & ->). exists e. split; [exact He|]. rewrite Et.
        destruct (item_good U 0 cfg hcfg me [] noname gh gh vg vh vg vh RK Ok Ok gen (fun x => x) Ok TR d num l GR e _ _ _ _ _ _ _ (proj1 He) Et) as (p & pts & _ & _ & _ & _ & HO).
        destruct (ch_own c) as [i|]; [lia|]. auto. }
    set (st1 := GState (T ++ map (mknode noname) l3) (fold_left gmask l3 mk) (num + length (kids me [] l3)) (Some w') (fold_left add_imp (flat_map (incs noname it) l3) imp)).
    assert (REST : exists st' masks', local_levels cfg it gh d st1 qnew r2 = Ok st' /\ lev_post (kids me [] l3) st1 masks st' masks').
    { assert (V' : forall d', d = Datatypes.S d' \/ kids me [] l3 = [] -> lev_inv d' (kids me [] l3) qnew st1 r2 masks).
      { apply (level_next U 0 cfg hcfg me [] noname gh gh vg vh vg vh RK Ok Ok gen (fun x => x) Ok it TR d l queue T mk num w imp pos masks V masks w' NDm Gw' qnew r2 Ww' QN' W2 Gpos). }
      destruct d as [|d'].
      - pose proof (kids_none U cfg me [] vg vh vg vh (fun x => x) Ok 0 num l GR eq_refl) as KN. fold l3 in KN.
        exists st1, masks. split; [reflexivity|]. pose proof (V' 0 (or_intror KN)) as V0. rewrite KN in *. eapply lev_done. exact V0.
      - destruct (IHd d' ltac:(lia) (kids me [] l3) qnew st1 r2 masks (V' d' (or_introl eq_refl))) as (st' & masks' & RN & PT). eauto. }
    destruct REST as (st' & masks' & RR & PT). exists st', masks'. split.
    - cbn [local_levels]. rewrite Equeue. rewrite <- Equeue. rewrite Edbn. cbn [mbind res_bind]. rewrite Ebs. cbn [mbind res_bind]. rewrite EB. cbn [mbind res_bind].
      rewrite EU. cbn [mbind res_bind fst snd]. rewrite ERL. cbn [mbind res_bind fst snd redispatch_merge]. exact RR.
    - apply (level_post U 0 cfg hcfg me [] noname gh gh vg vh vg vh RK Ok Ok gen (fun x => x) Ok it Hit TR d l queue T mk num w imp pos masks V masks w'); auto. intros; lia.
  Qed.

  Lemma local_fit_ok {C} (enc_gh : dtable K (Qc * Qc) -> res (dtable K (C * C))) ghc d t : enc_gh gh = Ok ghc -> c_depth cfg = Datatypes.S d -> learn d = Ok t ->
    exists st hm, local_fit cfg it gh enc_gh = Ok st /\ fit_post t st hm.
  Proof.
    intros EE ED EL. set (G := sum_if (fun _ => true) vg U) in *. set (H := sum_if (fun _ => true) vh U) in *.
    destruct (grow_weight U cfg me [] vg vh vg vh (fun x => x) Ok d _ _ _ _ EL) as (w & Ew).
    destruct (fit_init U 0 cfg hcfg me [] noname gh gh vg vh vg vh RK Ok Ok gen (fun x => x) Ok TR d t w EL Ew) as (pos & Epos & V).
    destruct (local_levels_ok d _ _ _ _ _ V) as (st & masks & RL & PT).
    destruct (fit_finish U 0 cfg hcfg me [] noname gh gh vg vh vg vh RK Ok Ok gen (fun x => x) Ok it TR t st masks PT) as (gm & hm & Egm & Hhm & FP).
    exists (GState (t_nodes st) gm (t_num st) (t_weights st) (t_imp st)), hm. split.
    - unfold local_fit. rewrite EE. cbn [mbind res_bind]. rewrite (sums_ok U ND 0 cfg hcfg me [] noname gh gh vg vh vg vh RK Ok Ok gen (fun x => x) Ok TR (proj2 (al_rows _ _ _ _ _ _ AL))).
      cbn [mbind res_bind fst snd]. rewrite sweight_model, Ew. cbn [mbind res_bind]. rewrite Epos, ED. cbn [mbind res_bind]. rewrite RL. cbn [mbind res_bind]. rewrite Egm. reflexivity.
    - exact FP.
  Qed.
End One.
