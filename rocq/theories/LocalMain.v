(** Boosting without a federation, and prediction. *)
From Verif Require Export LocalProofs.
Local Open Scope nat_scope.

(** ** Prediction with one tree *)
Section Predict.
  Context {K : Type} `{EqDecision K} (T : list node) (gm : dict nat mval) (hm : nat -> dict nat mval) (gd : dtable K (dict nat Qc)) (hd : nat -> dtable K (dict nat Qc)) (Wg : dt_wf gd).
  Lemma alone_down x id t : prepr 0 noname T gm hm id t -> gdown x t = PL (pwalk x t).
  Proof.
    intros R. induction R as [id nd|id nd own f v l r li ri E1 E2 HO E3 E4 E5 L1 L2 Rl IHl Rr IHr]; [reflexivity|].
    destruct own as [i|]; [lia|]. cbn [gdown pwalk]. destruct (qleb _ _); assumption.
  Qed.

  Lemma local_predict_ok t : prepr 0 noname T gm hm 0 t -> exists w, local_predict T gm gd = Ok w /\ dt_wf w /\ forall k v, tget w k = Some v <-> k ∈ dt_keys gd /\ v = pwalk (jrow gd hd k) t.
  Proof.
    intros RT. unfold local_predict.
    destruct (dt_mapValues_rel (fun _ => Ok (0, 1%Z)) (fun _ (_ : dict nat Qc) s => s = (0, 1%Z)) gd Wg) as (data & Ed & Wd & _ & Gd). { eauto. }
    assert (DK : forall k, is_Some (tget data k) <-> is_Some (tget gd k)).
    { intros k. specialize (Gd k). destruct (tget gd k), (tget data k); try contradiction; split; intros A; first [eexists; reflexivity|destruct A as [? A]; discriminate A]. }
    assert (AT : at_tree 0 noname T gm hm gd data (fun _ => t)).
    { split; [exact Wd|]. intros k s Hs. split; [apply DK; eauto|]. specialize (Gd k). rewrite Hs in Gd. destruct (tget gd k); [subst; exact RT|contradiction]. }
    destruct (predict_local_ok 0 noname T gm hm ltac:(intros; lia) gd hd Wg data (fun _ => t) None AT ltac:(discriminate)) as (w & rest & Ep & Ww & Wr & Gw & Gr & _).
    rewrite Ed. cbn [mbind res_bind]. rewrite Ep. cbn [mbind res_bind fst snd].
    assert (Z : dt_count rest = 0).
    { unfold dt_count. destruct (dt_data rest) as [|[k s] l] eqn:El; [reflexivity|]. exfalso.
      assert (Hk : tget rest k = Some s) by (apply tget_elem; [exact Wr|rewrite El; left]).
      destruct (Gr k s Hk) as (_ & _ & _ & i & f & thr & a & b & E). rewrite (alone_down _ _ _ RT) in E. discriminate. }
    rewrite Z. cbn [Nat.eqb]. exists w. split; [reflexivity|]. split; [exact Ww|]. intros k v. rewrite Gw, DK, tget_is_Some, (alone_down _ _ _ RT). split.
    - intros [A|(_ & B & [= <-])]; [discriminate|auto].
    - intros (B & ->). right. auto.
  Qed.
End Predict.

Section Train.
  Context {K : Type} `{EqDecision K} {C : Type} (rnd : Qc -> Qc) (pred : loss_kind -> list Qc -> list Qc) (lossf : loss_kind -> dtable K nat -> dtable K (list Qc) -> Qc).
  Context (U : list K) (cfg : pcfg K) (me : party K) (it : imp_type) (Hit : it <> IOther) (P : bparams) (kind : loss_kind) (dim : nat) (y : dtable K nat) (lab : K -> nat).
  Context (draw : nat -> nat -> nat -> list nat) (enc : nat -> dtable K (Qc * Qc) -> res (dtable K (C * C))) (d : nat).
  Local Notation lam := (reg_lambda (c_par cfg)).
  Local Notation mi := (min_impurity (c_par cfg)).
  Local Notation hcfg := (fun _ : nat => cfg).
  Local Notation lr := (b_lr P).
  Local Notation per_split := (match it with ISplit => true | _ => false end).
  Local Notation wt := (wt me []).
  Local Notation valid := (gvalid cfg P draw).

  (** What the party needs before training. The encrypted gradients are not used, but encryption must not fail. *)
  Record alone_ready : Prop := {
    ar_alone : exists gh vg vh, alone_ok U cfg me gh vg vh;
    ar_features : 1 <= length (c_points cfg) /\ (Z.of_nat (length (c_points cfg)) <= 2 ^ 31)%Z;
    ar_rate : (0 < b_rate P)%Qc /\ (b_rate P <= 1)%Qc;
    ar_draws : forall j, draws (draw j);
    ar_depth : c_depth cfg = Datatypes.S d /\ d <= 30;
    ar_lambda : (0 < lam)%Qc;
    ar_dim : 0 < dim;
    ar_labels : forall k, k ∈ U -> match kind with Sigmoid => dim = 1 /\ lab k <= 1 | Softmax => lab k < dim end;
    ar_y : dt_wf y /\ (forall k, k ∈ dt_keys y <-> k ∈ U) /\ forall k v, (k, v) ∈ dt_data y -> v = lab k;
    ar_pred : forall f, length f = dim -> length (pred kind f) = dim /\ forall x, x ∈ pred kind f -> (0 <= x)%Qc /\ (x <= 1)%Qc;
    ar_rnd : rnd_ok rnd;
    ar_enc : forall j gs, dt_wf gs -> (forall k, k ∈ dt_keys gs <-> k ∈ U) -> (forall k c, (k, c) ∈ dt_data gs -> (qabs c.1 <= 1)%Qc /\ (0 <= c.2)%Qc /\ (c.2 <= 1)%Qc) -> exists ghc, enc j gs = Ok ghc }.
  Context (AR : alone_ready).

  Lemma valid_ok j : sample_valid_features (length (c_points cfg)) (b_rate P) (draw j) = Ok (valid j) /\ length (valid j) = length (c_points cfg).
  Proof.
    destruct (ar_features AR) as (F1 & F2). destruct (ar_rate AR) as [R0 R1]. destruct (sample_ok (length (c_points cfg)) (b_rate P) (draw j)) as (v & Ev & Lv & _); auto; [lia|apply (ar_draws AR)|]. unfold gvalid. now rewrite Ev.
  Qed.

  Definition alone_walks (t : dtree) : Prop := forall raw hraw, raw_of cfg raw -> forall k, k ∈ U -> pwalk (jrow raw hraw k) (pt_of cfg hcfg t) = route me [] t k.
  Definition alone_tree (j : nat) (vg vh : K -> Qc) (t : dtree) : Prop :=
    learn U lam mi (with_valid me (valid j)) [] vg vh vg vh (fun x => x) Ok d = Ok t /\ alone_walks t /\ tdepth t <= d.

  Lemma alone_with j gs vg vh : dt_wf gs -> (forall k, k ∈ dt_keys gs <-> k ∈ U) -> (forall k c, (k, c) ∈ dt_data gs -> c = (vg k, vh k)) ->
    alone_ok U (set_valid cfg (valid j)) (with_valid me (valid j)) gs vg vh.
  Proof.
    intros W KS V. destruct (ar_alone AR) as (gh0 & vg0 & vh0 & [A1 A2 A3 A4 A5 _]). destruct (valid_ok j) as [_ L]. split; auto. now apply party_with.
  Qed.

  Lemma alone_total me' vg vh d' : (0 < lam)%Qc -> (forall k, k ∈ U -> (0 <= vh k)%Qc) -> exists t, learn U lam mi me' [] vg vh vg vh (fun x => x) Ok d' = Ok t.
  Proof. intros L V. exact (plain_total U me' [] vg vh lam mi d' L V). Qed.

  Lemma local_fit_base j gs vg vh : dt_wf gs -> (forall k, k ∈ dt_keys gs <-> k ∈ U) -> (forall k c, (k, c) ∈ dt_data gs -> c = (vg k, vh k)) ->
    (forall k, k ∈ U -> (qabs (vg k) <= 1)%Qc /\ (0 <= vh k)%Qc /\ (vh k <= 1)%Qc) ->
    exists t st g h w, alone_tree j vg vh t /\ local_fit (set_valid cfg (valid j)) it gs (enc j) = Ok st /\
      save_tree (t_nodes st) (t_mask st) = Ok g /\ stored 0 noname cfg hcfg g h t /\
      t_weights st = Some w /\ dt_wf w /\ (forall k v, tget w k = Some v <-> k ∈ U /\ v = route me [] t k) /\
      NoDup (t_imp st).*1 /\ forall key, dict_get key (t_imp st) = add_all None (gains (own_site noname) per_split key t).
  Proof.
    intros W KS V BD. pose proof (alone_with j gs vg vh W KS V) as AL. destruct (alone_total (with_valid me (valid j)) vg vh d (ar_lambda AR)) as (t & Et). { intros k Hk. now apply BD. }
    destruct (ar_enc AR j gs W KS) as (ghc & Ee).
    { intros k c Hc. pose proof (V k c Hc) as ->. apply BD. apply KS. unfold dt_keys. apply elem_of_list_fmap. exists (k, (vg k, vh k)). auto. }
    destruct (ar_depth AR) as [ED D30].
    destruct (local_fit_ok U (set_valid cfg (valid j)) (with_valid me (valid j)) gs vg vh it Hit AL (enc j) ghc d t Ee ED Et) as (st & hm & EF & FP).
    destruct (grow_consistent _ _ _ _ _ _ _ _ _ _ _ _ _ _ _ _ Et) as [_ DE]. pose proof (grow_tight U _ _ lam mi vg vh _ _ (fun x => x) Ok d _ _ _ _ Et) as TI.
    assert (PX : forall own, c_points (cfg_of (set_valid cfg (valid j)) (fun _ => set_valid cfg (valid j)) own) = c_points (cfg_of cfg hcfg own)) by (intros [i|]; reflexivity).
    destruct (fit_stored U 0 _ _ _ _ noname it t st hm d FP DE D30) as (g & h & Eg & _ & ST & ST').
    { intros own Ho. rewrite PX. destruct own as [i|]; cbn [cfg_of]; [lia|apply (ar_features AR)]. }
    destruct (f_weights _ _ _ _ _ _ _ _ _ _ _ FP) as (w & Ew & Ww & GW).
    assert (RT : forall k, route (with_valid me (valid j)) [] t k = route me [] t k) by (intros k; exact (route_with me [] (valid j) (fun _ => []) t k)).
    exists t, st, g, h, w. split.
    { split; [exact Et|]. split; [|exact DE]. intros raw hraw RG k Hk. rewrite <- (pt_with cfg hcfg _ _ t PX), <- RT.
      apply (walk_route U 0 _ _ (with_valid me (valid j)) [] noname (al_party _ _ _ _ _ _ AL) ltac:(intros i p Hp; now rewrite lookup_nil in Hp) ltac:(cbn; lia) raw hraw) with (T := t_nodes st) (gm := t_mask st) (hm := hm) (S := fun _ => true) (id := 0).
      - now apply raw_with.
      - intros; lia.
      - exact Hk.
      - exact (f_repr _ _ _ _ _ _ _ _ _ _ _ FP).
      - exact TI.
      - reflexivity. }
    split; [exact EF|]. split; [exact Eg|]. split; [split; [rewrite <- (pt_with cfg hcfg _ _ t PX); exact ST|exact ST']|]. split; [exact Ew|]. split; [exact Ww|]. split; [|split].
    - intros k v. rewrite GW, RT. reflexivity.
    - exact (f_impnd _ _ _ _ _ _ _ _ _ _ _ FP).
    - exact (f_imp _ _ _ _ _ _ _ _ _ _ _ FP).
  Qed.

  Local Notation binv := (binv rnd pred U 0 cfg hcfg me [] noname it P kind dim lab alone_tree).
  Local Notation grads_at := (grads_at rnd pred U me [] P kind dim lab).
  Local Notation noht := (fun _ : nat => @nil tree_pb).
  Local Notation losses := (losses rnd pred lossf U me [] P kind dim y).

  (** One tree. *)
  Lemma local_tree_ok T0 gh T r c st : binv T r c st noht -> c < dim -> grads_at T0 r gh -> (forall j k, j < r * dim -> wt T0 j k = wt T j k) -> exists t st',
    local_tree rnd P cfg it draw enc gh st c = Ok st' /\ binv (T ++ [t]) r (Datatypes.S c) st' noht /\ bs_hist st' = bs_hist st /\ bs_pre st' = bs_pre st.
  Proof.
    intros I Hc GA PX. destruct I as [LT BO [WF GF] [L1 L2] STO IMP]. destruct (class_ok rnd pred U me [] P kind dim lab T0 r gh c GA Hc) as (gs & Egs & Wgs & Kgs & Vgs).
    set (vg := fun k => gradient rnd kind (lab k) (pred kind (scores rnd lr dim (wt T0) r k)) c). set (vh := fun k => hessian rnd (pred kind (scores rnd lr dim (wt T0) r k)) c).
    destruct (local_fit_base (length T) gs vg vh Wgs Kgs Vgs) as (t & ts & g & h & w & GR & EF0 & Eg & ST & Ew & Ww & Gw & NI & IM).
    { intros k Hk. destruct (ar_pred AR (scores rnd lr dim (wt T0) r k)) as [_ Bp]; [unfold scores; now rewrite map_length, seq_length|].
      apply gradient_bound; [exact (ar_rnd AR)|exact Bp|]. pose proof (ar_labels AR k Hk) as HL. destruct kind; [apply HL|exact I]. }
    destruct (update_ok rnd U me [] P dim (ar_dim AR) T r c (bs_F st) w t LT Hc WF GF Ww Gw) as (F' & EF & WF' & GF').
    exists t, (BState F' (bs_trees st ++ [g]) (add_importance (bs_imp st) (t_imp ts)) (bs_hist st) (bs_pre st)). split; [|split; [|split; reflexivity]].
    - unfold local_tree. cbv zeta. rewrite L1, Egs. cbn [mbind res_bind]. rewrite (proj1 (valid_ok (length T))). cbn [mbind res_bind]. rewrite EF0. cbn [mbind res_bind]. rewrite Eg, Ew. cbn [mbind res_bind the_val]. rewrite EF. reflexivity.
    - split; cbn [bs_F bs_trees bs_imp bs_hist bs_pre].
      + rewrite app_length, LT. cbn. lia.
      + apply (boosted_app rnd pred U me [] P kind dim lab alone_tree (ar_dim AR) T t r c vg vh LT Hc BO); [rewrite <- LT; exact GR|]. intros k Hk. unfold vg, vh. rewrite (scores_ext rnd lr dim (wt T0) (wt T)) by (intros j Hj; now apply PX). auto.
      + split; [exact WF'|exact GF'].
      + rewrite !app_length, L1. split; [reflexivity|]. intros; lia.
      + intros j t' Hj. apply lookup_app_Some in Hj as [Hj|[Lj Hj]].
        * destruct (STO j t' Hj) as (g' & h' & A & B & D). exists g', h'. split; [now apply lookup_app_l_Some|]. split; [intros; lia|exact D].
        * apply list_lookup_singleton_Some in Hj as [E0 <-]. assert (j = length T) as -> by lia. exists g, h. split; [rewrite <- L1; now apply list_lookup_middle|]. split; [intros; lia|exact ST].
      + intros key. rewrite add_importance_get by exact NI. rewrite IM, IMP, gains_all_app, <- add_all_app. cbn [flat_map]. rewrite app_nil_r.
        destruct (gains _ _ key t) as [|x l]; [reflexivity|]. cbn [add_all]. f_equal. rewrite zq_0. ring.
  Qed.

  (** One round. *)
  Lemma local_round_ok gh T r st : binv T r 0 st noht -> grads_at T r gh -> exists T' st',
    foldM (local_tree rnd P cfg it draw enc gh) st (seq 0 dim) = Ok st' /\ binv (T ++ T') (Datatypes.S r) 0 st' noht /\ length T' = dim /\ bs_hist st' = bs_hist st /\ bs_pre st' = bs_pre st.
  Proof.
    intros I GA.
    assert (G : forall n, n <= dim -> exists T' st', foldM (local_tree rnd P cfg it draw enc gh) st (seq 0 n) = Ok st' /\ binv (T ++ T') r n st' noht /\ length T' = n /\ bs_hist st' = bs_hist st /\ bs_pre st' = bs_pre st).
    { induction n as [|n IH]; intros Hn; [exists [], st; rewrite app_nil_r; auto|]. destruct (IH ltac:(lia)) as (T1 & a & E1 & I1 & L1 & H1 & P1).
      destruct (local_tree_ok T gh (T ++ T1) r n a I1 ltac:(lia) GA) as (t & a' & E2 & I2 & H2 & P2).
      { intros j k Hj. unfold BoostSpec.wt. rewrite lookup_app_l; [reflexivity|]. pose proof (bi_len _ _ _ _ _ _ _ _ _ _ _ _ _ _ _ _ _ _ _ _ I). lia. }
      exists (T1 ++ [t]), a'. rewrite seq_S, foldM_app. cbn [Nat.add]. rewrite E1. cbn [mbind res_bind foldM]. rewrite E2. cbn [mbind res_bind]. rewrite app_assoc, !app_length. cbn [length].
      split; [reflexivity|]. split; [exact I2|]. split; [lia|]. split; congruence. }
    destruct (G dim (le_n _)) as (T' & st' & E & I' & L' & H' & P'). exists T', st'. split; [exact E|]. split; [|auto].
    destruct I' as [A B [D1 D2] E' F' G']. split; auto.
    - rewrite A. lia.
    - split; [exact D1|]. intros k v. rewrite D2, mids_dim, mids_0. reflexivity.
  Qed.

  Lemma local_boost_ok rounds : forall T r st, binv T r 0 st noht -> length (bs_hist st) = r -> losses T (bs_hist st) -> bs_pre st = (if b_early P then last (bs_hist st) else None) ->
    (b_early P = true -> forall q, ~ close rnd (b_tol P) (bs_hist st) q) -> exists T' st',
    local_boost rnd pred lossf P cfg it kind dim y draw enc rounds st = Ok st' /\ binv T' (length (bs_hist st')) 0 st' noht /\ losses T' (bs_hist st') /\ stops rnd (b_early P) (b_tol P) (r + rounds) (bs_hist st').
  Proof.
    pose proof (ar_dim AR) as Hdim.
    induction rounds as [|rounds IH]; intros T r st I LH LO PR NC.
    - exists T, st. split; [reflexivity|]. rewrite LH. split; [exact I|]. split; [exact LO|]. split; [lia|]. destruct (b_early P); [|lia]. split; [intros q _; now apply NC|lia].
    - destruct (grads_ok rnd pred lossf U 0 cfg hcfg me [] noname it P kind dim y lab alone_tree Hdim (ar_labels AR) (ar_y AR) (ar_pred AR) T r st noht I) as (gh & Egh & GA).
      destruct (local_round_ok gh T r st I GA) as (T' & st1 & E1 & I1 & LT' & H1 & P1).
      destruct (bi_F _ _ _ _ _ _ _ _ _ _ _ _ _ _ _ _ _ _ _ _ I1) as [WF GF].
      destruct (dt_mapValues_rel (fun f => Ok (pred kind f)) (fun k _ v => v = pred kind (scores rnd lr dim (wt (T ++ T')) (Datatypes.S r) k)) (bs_F st1) WF) as (yp & Eyp & Wyp & Kyp & Gyp).
      { intros k v Hv. apply GF in Hv as [_ ->]. eauto. }
      assert (GY : forall k v, tget yp k = Some v <-> k ∈ U /\ v = pred kind (scores rnd lr dim (wt (T ++ T')) (Datatypes.S r) k)).
      { intros k v. specialize (Gyp k). split.
        - intros Hv. rewrite Hv in Gyp. destruct (tget (bs_F st1) k) as [f|] eqn:Ef; [|contradiction]. apply GF in Ef as [Hk _]. auto.
        - intros [Hk ->]. assert (A : tget (bs_F st1) k = Some (mids rnd lr dim (wt (T ++ T')) (Datatypes.S r) 0 k)) by (apply GF; auto). rewrite A in Gyp. destruct (tget yp k); [now subst|contradiction]. }
      set (loss := lossf kind y yp). set (hist := bs_hist st ++ [loss]).
      assert (LO1 : losses (T ++ T') hist).
      { intros q x Hq. apply lookup_app_Some in Hq as [Hq|[Lq Hq]].
        - apply (losses_app rnd pred lossf U me [] P kind dim y Hdim T T' (bs_hist st)); [rewrite LH; pose proof (bi_len _ _ _ _ _ _ _ _ _ _ _ _ _ _ _ _ _ _ _ _ I); lia|exact LO|exact Hq].
        - apply list_lookup_singleton_Some in Hq as [E0 <-]. assert (q = r) as -> by lia. exists yp. auto. }
      assert (L1 : length hist = Datatypes.S r) by (unfold hist; rewrite app_length, LH; cbn; lia).
      cbn [local_boost]. rewrite Egh. cbn [mbind res_bind]. rewrite E1. cbn [mbind res_bind]. rewrite Eyp. cbn [mbind res_bind]. cbv zeta. cbn [bs_F bs_trees bs_imp bs_hist bs_pre]. rewrite H1, P1. fold loss hist. destruct (b_early P) eqn:EE.
      + set (c := is_converge rnd (b_tol P) (bs_pre st) loss).
        set (st2 := BState (bs_F st1) (bs_trees st1) (bs_imp st1) hist (Some loss)).
        assert (I2 : binv (T ++ T') (Datatypes.S r) 0 st2 noht) by (destruct I1; split; assumption).
        assert (CC : if c then exists q, length hist = Datatypes.S (Datatypes.S q) /\ close rnd (b_tol P) hist q else forall q, ~ close rnd (b_tol P) hist q).
        { unfold c, is_converge. rewrite PR. unfold hist. destruct (last (bs_hist st)) as [a|] eqn:El.
          - destruct (qltb _ _) eqn:Eq.
            + apply qltb_true in Eq. exact (close_last rnd P dim Hdim _ _ _ El Eq).
            + apply qltb_false in Eq. intros q Hq. apply (close_app rnd P dim Hdim) in Hq as [Hq|(_ & a' & El' & Hq)]; [exact (NC eq_refl q Hq)|]. rewrite El in El'. injection El' as <-. qlra.
          - intros q Hq. apply (close_app rnd P dim Hdim) in Hq as [Hq|(_ & a' & El' & _)]; [exact (NC eq_refl q Hq)|]. congruence. }
        assert (NX : forall q, Datatypes.S (Datatypes.S q) < length hist -> ~ close rnd (b_tol P) hist q).
        { intros q Lq Hq. apply (close_app rnd P dim Hdim) in Hq as [Hq|(Lq' & _)]; [exact (NC eq_refl q Hq)|]. lia. }
        destruct c eqn:Ec.
        * exists (T ++ T'), st2. split; [reflexivity|]. cbn [st2 bs_hist]. rewrite L1. split; [exact I2|]. split; [exact LO1|]. split; [lia|]. split; [exact NX|]. intros _. exact CC.
        * destruct (IH (T ++ T') (Datatypes.S r) st2 I2) as (T2 & st' & RU2 & I' & LO' & ST'); [exact L1|exact LO1| |intros _; exact CC|].
          { cbn. unfold hist. now rewrite last_snoc. }
          exists T2, st'. split; [exact RU2|]. replace (r + Datatypes.S rounds) with (Datatypes.S r + rounds) by lia. auto.
      + set (st2 := BState (bs_F st1) (bs_trees st1) (bs_imp st1) hist (bs_pre st)).
        assert (I2 : binv (T ++ T') (Datatypes.S r) 0 st2 noht) by (destruct I1; split; assumption).
        destruct (IH (T ++ T') (Datatypes.S r) st2 I2) as (T2 & st' & RU2 & I' & LO' & ST'); [exact L1|exact LO1|cbn; congruence|discriminate|].
        exists T2, st'. split; [exact RU2|]. replace (r + Datatypes.S rounds) with (Datatypes.S r + rounds) by lia. auto.
  Qed.

  Lemma local_train_ok : exists T st, local_train rnd pred lossf P cfg it kind dim y draw enc = Ok st /\
    binv T (length (bs_hist st)) 0 st noht /\ losses T (bs_hist st) /\ stops rnd (b_early P) (b_tol P) (b_rounds P) (bs_hist st).
  Proof.
    destruct (ar_y AR) as (Wy & Ky & Vy).
    destruct (dt_mapValues_rel (fun _ => Ok (repeat (zq 0) dim)) (fun _ (_ : nat) f => f = repeat (zq 0) dim) y Wy) as (F & EF & WF & KF & GF). { eauto. }
    assert (Z0 : forall k, mids rnd lr dim (wt []) 0 0 k = repeat (zq 0) dim).
    { intros k. transitivity (map (fun _ : nat => zq 0) (seq 0 dim)).
      - unfold mids. apply map_ext. intros c. reflexivity.
      - clear. generalize 0 as c0. induction dim as [|n IHn]; intros c0; [reflexivity|]. cbn [seq map repeat]. now rewrite IHn. }
    assert (I0 : binv [] 0 0 (BState F [] [] [] None) noht).
    { split; cbn [bs_F bs_trees bs_imp].
      - reflexivity.
      - intros r c t _ Ht. now rewrite lookup_nil in Ht.
      - split; [exact WF|]. intros k v. specialize (GF k). rewrite Z0. split.
        + intros Hv. rewrite Hv in GF. destruct (tget y k) eqn:Ey; [|contradiction]. split; [apply Ky; eapply tget_key; eauto|exact GF].
        + intros [Hk ->]. apply Ky, tget_is_Some in Hk as [v Hv]. rewrite Hv in GF. destruct (tget F k); [now subst|contradiction].
      - split; reflexivity.
      - intros j t Hj. now rewrite lookup_nil in Hj.
      - reflexivity. }
    destruct (local_boost_ok (b_rounds P) [] 0 _ I0) as (T & st & RU & I & LO & ST); [reflexivity|intros q x Hq; cbn in Hq; now rewrite lookup_nil in Hq|cbn; now destruct (b_early P)|intros _ q (a & b & Ha & _); cbn in Ha; now rewrite lookup_nil in Ha|].
    exists T, st. split; [|auto]. unfold local_train. rewrite EF. exact RU.
  Qed.

  (** Scoring the raw training rows with the stored trees. *)
  Lemma local_score_ok T st raw : binv T (length (bs_hist st)) 0 st noht -> raw_of cfg raw ->
    exists F, local_score rnd lr dim (bs_trees st) raw = Ok F /\ dt_wf F /\ forall k v, tget F k = Some v <-> tget (bs_F st) k = Some v.
  Proof.
    intros I RG. destruct (ar_alone AR) as (gh0 & vg0 & vh0 & AL). pose proof (ar_dim AR) as Hdim. pose proof (ra_wf _ _ RG) as Wg. set (n := length (bs_hist st)) in *.
    destruct I as [LT BO [WF GF] [L1 _] STO _]. rewrite Nat.add_0_r in LT.
    assert (KG : forall k, k ∈ dt_keys raw <-> k ∈ U) by (intros k; rewrite (ra_keys _ _ RG); apply (po_keys _ _ _ (al_party _ _ _ _ _ _ AL))).
    assert (WK : forall j t, T !! j = Some t -> alone_walks t).
    { intros j t Ht. rewrite (Nat.div_mod j dim) in Ht by lia. rewrite Nat.mul_comm in Ht.
      destruct (BO (j / dim) (j mod dim) t) as (vg & vh & (_ & W & _) & _); [apply Nat.mod_upper_bound; lia|exact Ht|exact W]. }
    set (F_at := fun r c (F : dtable K (list Qc)) => dt_wf F /\ forall k v, tget F k = Some v <-> k ∈ U /\ v = mids rnd lr dim (wt T) r c k).
    assert (TREE : forall r c F, r < n -> c < dim -> F_at r c F -> exists F',
      (p ← list_index (bs_trees st) (r * dim + c); let t := load_tree p in w ← local_predict t.1 t.2 raw; update_f rnd lr c F w) = Ok F' /\ F_at r (Datatypes.S c) F').
    { intros r c F Hr Hc [WF0 GF0]. assert (Hj : r * dim + c < length T) by nia. destruct (lookup_lt_is_Some_2 T _ Hj) as [t Ht]. destruct (STO _ _ Ht) as (g & h & Eg & _ & PR & _).
      rewrite (list_index_ok _ _ _ Eg). cbn [mbind res_bind]. cbv zeta.
      destruct (local_predict_ok (load_tree g).1 (load_tree g).2 (fun i => (load_tree (h i)).2) raw (fun _ => raw) Wg _ PR) as (w & Ew & Ww & Gw).
      rewrite Ew. cbn [mbind res_bind].
      assert (Gw' : forall k v, tget w k = Some v <-> k ∈ U /\ v = route me [] t k).
      { intros k v. rewrite Gw, KG. split; intros (Hk & ->); split; auto; [|symmetry]; apply (WK _ _ Ht); auto. }
      unfold update_f.
      destruct (dt_join_rel (fun f x => old ← list_index f c; Ok (<[c := rnd (old + rnd (lr * x))%Qc]> f))
        (fun k _ _ v => v = mids rnd lr dim (wt T) r (Datatypes.S c) k) F w Ww) as (F' & EF & WF' & KF' & GF').
      { intros k f x Hf Hx. apply GF0 in Hf as [Hk ->]. apply Gw' in Hx as [_ ->].
        assert (X : mids rnd lr dim (wt T) r c k !! c = Some (score rnd lr dim (wt T) r c k)) by (rewrite mids_lookup, Nat.ltb_irrefl by exact Hc; reflexivity).
        rewrite (list_index_ok _ _ _ X). cbn [mbind res_bind]. eexists. split; [reflexivity|].
        rewrite (mids_S rnd lr dim (wt T) (wt T)); [|exact Hc|reflexivity]. assert (Y : wt T (r * dim + c) k = route me [] t k) by (unfold BoostSpec.wt; now rewrite Ht). rewrite Y. reflexivity. }
      exists F'. split; [exact EF|]. split; [exact WF'|]. intros k v. specialize (GF' k). split.
      - intros Hv. rewrite Hv in GF'. destruct (tget F k) as [f|] eqn:Ef; [|contradiction]. apply GF0 in Ef as [Hk _]. split; [exact Hk|]. destruct (tget w k); [exact GF'|contradiction].
      - intros [Hk ->]. assert (A : tget F k = Some (mids rnd lr dim (wt T) r c k)) by (apply GF0; auto). assert (B : tget w k = Some (route me [] t k)) by (apply Gw'; auto).
        rewrite A, B in GF'. destruct (tget F' k); [now subst|contradiction]. }
    set (step := fun r F tidx => p ← list_index (bs_trees st) (r * dim + tidx); let t := load_tree p in w ← local_predict t.1 t.2 raw; update_f rnd lr tidx F w) in *.
    assert (ROUND : forall r F, r < n -> F_at r 0 F -> exists F', foldM (step r) F (seq 0 dim) = Ok F' /\ F_at (Datatypes.S r) 0 F').
    { intros r F Hr FA. assert (G : forall m, m <= dim -> exists F', foldM (step r) F (seq 0 m) = Ok F' /\ F_at r m F').
      { induction m as [|m IH]; intros Hm; [exists F; auto|]. destruct (IH ltac:(lia)) as (F1 & E1 & A1). destruct (TREE r m F1 Hr ltac:(lia) A1) as (F2 & E2 & A2).
        exists F2. rewrite seq_S, foldM_app, E1. cbn [mbind res_bind foldM Nat.add]. change (step r F1 m = Ok F2) in E2. rewrite E2. auto. }
      destruct (G dim (le_n _)) as (F' & E & A & B). exists F'. split; [exact E|]. split; [exact A|]. intros k v. rewrite B, mids_dim, mids_0. reflexivity. }
    destruct (dt_mapValues_rel (fun _ => Ok (repeat (zq 0) dim)) (fun _ (_ : dict nat Qc) f => f = repeat (zq 0) dim) raw Wg) as (F0 & EF & WF0 & KF & GF0). { eauto. }
    assert (I0 : F_at 0 0 F0).
    { split; [exact WF0|]. intros k v. specialize (GF0 k). rewrite <- KG.
      assert (Z0 : mids rnd lr dim (wt T) 0 0 k = repeat (zq 0) dim).
      { transitivity (map (fun _ : nat => zq 0) (seq 0 dim)).
        - unfold mids. apply map_ext. intros c. reflexivity.
        - clear. generalize 0 as c0. induction dim as [|m IHm]; intros c0; [reflexivity|]. cbn [seq map repeat]. now rewrite IHm. }
      rewrite Z0. split.
      - intros Hv. rewrite Hv in GF0. destruct (tget raw k) eqn:Ey; [|contradiction]. split; [eapply tget_key; eauto|exact GF0].
      - intros (Hk & ->). apply tget_is_Some in Hk as [v Hv]. rewrite Hv in GF0. destruct (tget F0 k); [now subst|contradiction]. }
    assert (ALL : forall m, m <= n -> exists F', foldM (fun F i => foldM (step i) F (seq 0 dim)) F0 (seq 0 m) = Ok F' /\ F_at m 0 F').
    { induction m as [|m IH]; intros Hm; [exists F0; auto|]. destruct (IH ltac:(lia)) as (F1 & E1 & A1). destruct (ROUND m F1 ltac:(lia) A1) as (F2 & E2 & A2).
      exists F2. rewrite seq_S, foldM_app, E1. cbn [mbind res_bind foldM Nat.add]. rewrite E2. auto. }
    destruct (ALL n (le_n _)) as (F & E & WF' & GF'). exists F. split.
    - unfold local_score. rewrite EF. cbn [mbind res_bind]. rewrite L1, LT, Nat.div_mul by lia. exact E.
    - split; [exact WF'|]. intros k v. rewrite GF', GF. reflexivity.
  Qed.
End Train.
