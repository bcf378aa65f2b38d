(** Training of a whole tree: every level, then the conversion of bins to values. *)
From Verif Require Export TreeLevel TreeRepr.
From Verif Require Import DTableModel DTableSpec DTableProofs.
Local Open Scope nat_scope.

(** ** Batches *)
Lemma chunks_map {A B} (f : A -> B) step fuel : forall l, chunks fuel step (map f l) = map (map f) (chunks fuel step l).
Proof.
  induction fuel as [|fuel IH]; intros [|a l]; try reflexivity. cbn [map]. cbn [chunks]. cbn [map].
  change (f a :: map f l) with (map f (a :: l)). f_equal; [symmetry; exact (fmap_take f step (a :: l))|].
  rewrite <- IH. f_equal. symmetry. exact (fmap_drop f step (a :: l)).
Qed.
Lemma chunks_concat {A} step fuel : forall l : list A, step <> 0 -> length l <= fuel -> concat (chunks fuel step l) = l /\ Forall (fun c => c <> []) (chunks fuel step l).
Proof.
  induction fuel as [|fuel IH]; intros [|a l] Hs L; try (split; [reflexivity|constructor]). { cbn in L. lia. }
  cbn [chunks concat]. destruct (IH (drop step (a :: l)) Hs) as [E F].
  { rewrite drop_length. cbn [length] in *. lia. }
  rewrite E. split; [apply take_drop|]. constructor; [|exact F]. destruct step; [easy|]. discriminate.
Qed.

Lemma add_all_app o a b : add_all (add_all o a) b = add_all o (a ++ b).
Proof.
  destruct a as [|x a]; [reflexivity|]. destruct b as [|y b]; [now rewrite app_nil_r|]. cbn [add_all app]. f_equal.
  change (x :: a ++ y :: b) with ((x :: a) ++ y :: b). rewrite qsum_app. ring.
Qed.
Lemma add_all_perm o a b : Permutation a b -> add_all o a = add_all o b.
Proof.
  intros P. pose proof (qsum_perm _ _ P) as Q. pose proof (Permutation_length P) as L. destruct a as [|x a], b as [|y b]; try discriminate; [reflexivity|].
  unfold add_all. now rewrite Q.
Qed.

(** ** Bins to values *)
Lemma convert_fold (F : dict nat mval -> node -> res (dict nat mval)) (sel : node -> bool) (points : list (list Qc)) :
  (forall m nd, F m nd = if sel nd then convert_node points m nd else Ok m) -> forall T m, NoDup (map n_id T) ->
  (forall nd, nd ∈ T -> sel nd = true -> exists f b pts, n_fid nd = Some f /\ dict_get (n_id nd) m = Some (MBin b) /\ points !! f = Some pts /\ b < length pts) ->
  exists m', foldM F m T = Ok m' /\ (NoDup m.*1 -> NoDup m'.*1) /\
    (forall id, id ∉ map n_id (List.filter sel T) -> dict_get id m' = dict_get id m) /\
    (forall nd f b pts x, nd ∈ T -> sel nd = true -> n_fid nd = Some f -> dict_get (n_id nd) m = Some (MBin b) -> points !! f = Some pts -> pts !! b = Some x ->
       dict_get (n_id nd) m' = Some (MReal x)).
Proof.
  intros HF. induction T as [|nd T IH]; intros m ND HT.
  { exists m. repeat split; auto. intros nd f b pts x Hx. inversion Hx. }
  cbn [map] in ND. apply NoDup_cons in ND as [NI ND]. cbn [foldM]. rewrite HF. destruct (sel nd) eqn:Es.
  - destruct (HT nd ltac:(left) Es) as (f & b & pts & Ef & Eb & Ep & Lb). apply lookup_lt_is_Some in Lb as (x & Ex).
    unfold convert_node. rewrite Ef. cbn [the_fid mbind res_bind]. unfold decode_val. rewrite Eb. cbn [mbind res_bind]. unfold list_index. rewrite Ep. cbn [mbind res_bind]. rewrite Ex.
    cbn [mbind res_bind]. destruct (IH (dict_set (n_id nd) (MReal x) m) ND) as (m' & Em & N1 & N2 & N3).
    { intros nd' H' S'. destruct (HT nd' ltac:(now right) S') as (f' & b' & pts' & A & B & D). exists f', b', pts'. split; [exact A|]. split; [|exact D].
      rewrite dict_get_set_ne; [exact B|]. intros X. apply NI. first [rewrite X|rewrite <- X]; now apply (elem_of_list_fmap_1 n_id). }
    exists m'. split; [exact Em|]. split; [intros Hm; apply N1; now apply dict_set_NoDup|]. cbn [List.filter]. rewrite Es. split.
    + intros id Hid. cbn [map] in Hid. apply not_elem_of_cons in Hid as [Hne Hid]. rewrite N2 by exact Hid. apply dict_get_set_ne; congruence.
    + intros nd' f' b' pts' x' H' S' A B D G. apply elem_of_cons in H' as [->|H'].
      * rewrite N2. { rewrite dict_get_set_eq. congruence. }
        intros X. apply NI. apply elem_of_list_fmap in X as (y & -> & Hy). apply (elem_of_list_fmap_1 n_id). apply elem_of_list_In, filter_In in Hy as [Hy _]. now apply elem_of_list_In.
      * apply (N3 nd' f' b' pts' x' H' S' A); [|exact D|exact G]. rewrite dict_get_set_ne; [exact B|]. intros X. apply NI. first [rewrite X|rewrite <- X]; now apply (elem_of_list_fmap_1 n_id).
  - cbn [mbind res_bind]. destruct (IH m ND) as (m' & Em & N1 & N2 & N3); [intros nd' H'; apply HT; now right|]. exists m'. split; [exact Em|]. split; [exact N1|].
    cbn [List.filter]. rewrite Es. split; [exact N2|]. intros nd' f' b' pts' x' H' S'. apply elem_of_cons in H' as [->|H']; [congruence|]. now apply N3.
Qed.

Lemma repr_mono name T (M M' : option nat -> nat -> nat -> nat -> Prop) id t : (forall own i f b, (exists nd, T !! i = Some nd /\ n_leaf nd = false /\ n_site nd = name own /\ n_fid nd = Some f) -> M own i f b -> M' own i f b) ->
  repr name T M id t -> repr name T M' id t.
Proof.
  intros HM. induction 1; [now apply repr_leaf|]. eapply repr_split; eauto. apply HM; [|assumption]. eexists. split; [eassumption|]. auto.
Qed.
Lemma repr_size name T M id t : repr name T M id t -> id < length T.
Proof. intros H. destruct H; eapply lookup_lt_Some; eassumption. Qed.

Section Fit.
  Context {K : Type} `{EqDecision K} {C E : Type} (U : list K) (NDU : NoDup U).
  Context (nh : nat) (gcfg : pcfg K) (hcfg : nat -> pcfg K) (guest : party K) (hosts : list (party K)) (sname : nat -> site).
  Context (gh : dtable K (Qc * Qc)) (ghc : dtable K (C * C)) (vg vh eg eh : K -> Qc).
  Context (O : numops C) (rep : C -> Z -> Qc -> Prop) (NL : numlaws O rep).
  Context (dec : C -> res Qc) (gdec : E -> res Qc) (genc : nat -> nat -> Qc -> res E) (rnd : Qc -> Qc) (rt : Qc -> res Qc).
  Context (it : imp_type) (Hit : it <> IOther).
  Context {R S : Type}.
  Local Notation msg := (msg K C E).
  Local Notation lam := (reg_lambda (c_par gcfg)).
  Local Notation mi := (min_impurity (c_par gcfg)).
  Local Notation info := (@info K).
  Local Notation item := (info * dtree * nat)%type.
  Local Notation goes := (goes guest hosts).
  Local Notation split_at := (split_at U gcfg guest hosts vg vh eg eh rnd rt).
  Local Notation to_si := (to_si gcfg sname).
  Local Notation qnode := (qnode gcfg).
  Local Notation route := (route guest hosts).
  Local Notation grown := (grown U gcfg guest hosts vg vh eg eh rnd rt).
  Local Notation number := (@number K).
  Local Notation mknode := (mknode sname).
  Local Notation kids := (kids guest hosts).
  Local Notation mkkids := (mkkids guest hosts).
  Local Notation good := (good U nh gcfg hcfg guest hosts).
  Local Notation side := (side guest hosts).
  Local Notation name := (own_site sname).
  Context (TR : train_ok U nh gcfg hcfg guest hosts sname gh ghc vg vh eg eh rep dec gdec genc rnd rt).

  Lemma level_batches pos (infs : list info) (queue : list node) (os : list (option (choice * Qc))) dbn dbns (masks : nat -> dict nat mval) : 0 < nh ->
    pos_ok U pos (map idS infs) -> Forall2 qnode queue infs -> NoDup (map i_id infs) ->
    Forall2 (fun x o => split_at x = Ok o) infs os ->
    with_positions (c_data gcfg) pos = Ok dbn -> (forall i, i < nh -> with_positions (c_data (hcfg i)) pos = Ok (dbns i)) ->
    (forall i, i < nh -> NoDup (masks i).*1) ->
    exists bs masks', batches (c_step gcfg) queue = Ok bs /\ (forall i, i < nh -> batches (c_step (hcfg i)) (map n_id queue) = Ok (map (map n_id) bs)) /\
      @runs msg R S nh _ _ (cfold (guest_batch nh gcfg gh dec gdec genc dbn) [] bs)
        (fun i => cfold (host_batch O (sname i) (hcfg i) ghc (dbns i)) (masks i) (map (map n_id) bs)) (map to_si os) masks' /\
      (forall i, i < nh -> NoDup (masks' i).*1) /\
      (forall i id, i < nh -> id ∉ map i_id infs -> dict_get id (masks' i) = dict_get id (masks i)) /\
      (forall j x c y i, i < nh -> infs !! j = Some x -> os !! j = Some (Some (c, y)) -> ch_own c = Some i ->
         dict_get (i_id x) (masks' i) = Some (MBin (ch_bin c))).
  Proof.
    intros SOME PO QN ND BS Ed Eds NDm. destruct (tr_step TR) as [Hst Hsti].
    exists (chunks (length queue) (c_step gcfg) queue). destruct (chunks_concat (c_step gcfg) (length queue) queue Hst (le_n _)) as [CC CN].
    set (bs := chunks (length queue) (c_step gcfg) queue) in *. assert (EB : chunks (length queue) (c_step gcfg) queue = bs) by reflexivity. clearbody bs.
    destruct (runs_fold (M := msg) (R := R) (S := S) nh (map n_id) bs (guest_batch nh gcfg gh dec gdec genc dbn) (fun i => host_batch O (sname i) (hcfg i) ghc (dbns i))
      (fun done acc ms => let n := length (concat done) in acc = map to_si (take n os) /\ (forall i, i < nh -> NoDup (ms i).*1) /\
         (forall i id, i < nh -> id ∉ map i_id (take n infs) -> dict_get id (ms i) = dict_get id (masks i)) /\
         (forall j x c y i, j < n -> i < nh -> infs !! j = Some x -> os !! j = Some (Some (c, y)) -> ch_own c = Some i ->
            dict_get (i_id x) (ms i) = Some (MBin (ch_bin c))))) with (a := @nil (splitinfo Qc Qc)) (b := masks) as (acc & masks' & RN & Hacc & N1 & N2 & N3).
    - intros done x rest acc ms El (Hacc & M1 & M2 & M3). cbv zeta in *. set (n := length (concat done)) in *.
      assert (EQ : queue = concat done ++ x ++ concat rest) by (rewrite <- CC, El, concat_app; reflexivity).
      set (infc := take (length x) (drop n infs)). set (osc := take (length x) (drop n os)).
      assert (EX : take (length x) (drop n queue) = x).
      { rewrite EQ. unfold n. rewrite drop_app_alt by reflexivity. apply take_app. }
      assert (QX : Forall2 qnode x infc) by (rewrite <- EX at 1; apply Forall2_take, Forall2_drop; exact QN).
      assert (BX : Forall2 (fun x o => split_at x = Ok o) infc osc) by (apply Forall2_take, Forall2_drop; exact BS).
      assert (SUB : forall y, y ∈ infc -> y ∈ infs).
      { intros y Hy. unfold infc in Hy. rewrite <- (take_drop n infs), <- (take_drop (length x) (drop n infs)). apply elem_of_app. right. apply elem_of_app. now left. }
      assert (TK : take n infs ++ infc = take (n + length x) infs) by (unfold infc; apply take_take_drop).
      assert (NDc : NoDup (map i_id infc)).
      { rewrite <- (take_drop n infs), <- (take_drop (length x) (drop n infs)) in ND. fold infc in ND. rewrite !map_app in ND.
        apply NoDup_app in ND as (_ & _ & ND). now apply NoDup_app in ND as (ND & _). }
      assert (NEx : x <> []).
      { rewrite El in CN. apply Forall_app in CN as [_ CN]. now apply Forall_cons in CN as [CN _]. }
      assert (NEc : infc <> []) by (intros X; rewrite X in QX; inversion QX; subst; contradiction).
      destruct (batch_ok (R := R) (S := S) U NDU nh gcfg hcfg guest hosts sname gh ghc vg vh eg eh O rep NL dec gdec genc rnd rt TR pos infs infc x osc dbn dbns SOME
        PO QX SUB NDc NEc BX Ed Eds acc ms M1) as (ms' & RN & B1 & B2 & B3).
      exists (acc ++ map to_si osc), ms'. split; [exact RN|]. rewrite concat_app, app_length. cbn [concat]. rewrite app_nil_r. fold n. split; [|split; [|split]].
      + rewrite Hacc, <- map_app. unfold osc. now rewrite take_take_drop.
      + exact B1.
      + intros i id Hi Hid. rewrite <- TK, map_app in Hid. rewrite B2 by (auto; intros X; apply Hid, elem_of_app; now right).
        apply M2; [exact Hi|]. intros X. apply Hid, elem_of_app. now left.
      + intros j y c g i Hj Hi Hy Ho Hc. destruct (decide (j < n)) as [Lj|Lj].
        * rewrite B2; [eauto|exact Hi|]. intros X. apply elem_of_list_lookup in X as (j' & X). rewrite map_lookup in X.
          destruct (infc !! j') as [y'|] eqn:Ey; [|discriminate]. cbn in X. injection X as X. unfold infc in Ey.
          apply lookup_take_Some in Ey as [Ey _]. rewrite lookup_drop in Ey.
          assert (A : map i_id infs !! (n + j') = Some (i_id y')) by (now rewrite map_lookup, Ey).
          assert (B : map i_id infs !! j = Some (i_id y)) by (now rewrite map_lookup, Hy). rewrite X in A.
          pose proof (NoDup_lookup _ _ _ _ ND A B). lia.
        * apply (B3 (j - n) y c g i Hi); [| |exact Hc]; unfold infc, osc; rewrite lookup_take by lia; rewrite lookup_drop; replace (n + (j - n)) with j by lia; assumption.
    - cbv zeta. cbn [concat length take map]. split; [reflexivity|]. split; [exact NDm|]. split; [auto|]. intros; lia.
    - cbv zeta in *. rewrite CC in Hacc, N2, N3. pose proof (Forall2_length _ _ _ QN) as L1. pose proof (Forall2_length _ _ _ BS) as L2.
      rewrite take_ge in Hacc by lia. rewrite take_ge in N2 by lia. exists masks'. subst acc. split; [|split; [|split; [exact RN|split; [exact N1|split; [exact N2|]]]]].
      + unfold batches. rewrite <- EB. destruct (c_step gcfg); [easy|]. reflexivity.
      + intros i Hi. rewrite (Hsti i Hi). unfold batches. rewrite <- EB. destruct (c_step gcfg); [easy|]. now rewrite map_length, chunks_map.
      + intros j x c y i Hi Hx. eapply N3; [|exact Hi|exact Hx]. apply lookup_lt_Some in Hx. lia.
  Qed.

  (** ** Bookkeeping for one level *)
  Lemma children_items (l : list item) : flat_map children (map mknode l) = map iid (kids l).
  Proof.
    unfold TreeLevel.kids. induction l as [|e l IH]; [reflexivity|]. cbn [map flat_map]. rewrite map_app, <- IH. f_equal. unfold TreeLevel.mknode, TreeLevel.mkkids.
    destruct (e.1.2) as [w G H|w G H c g t1 t2]; reflexivity.
  Qed.
  Definition sizes (l : list (info * dtree)) : nat := list_sum (map (fun xt => tsize xt.2) l).
  Lemma sizes_kids l : forall num, sizes l = length l + sizes (kids (number num l)).
  Proof.
    unfold sizes. induction l as [|[x t] l IH]; intros num; [reflexivity|]. cbn [number TreeLevel.number]. unfold TreeLevel.kids in *. cbn [flat_map]. rewrite map_app, list_sum_app.
    cbn [map length snd]. change (list_sum (tsize t :: map (fun xt => tsize xt.2) l)) with (tsize t + list_sum (map (fun xt : info * dtree => tsize xt.2) l)).
    rewrite (IH (match t with TSplit _ _ _ _ _ _ _ => num + 2 | TLeaf _ _ _ => num end)). destruct t; unfold TreeLevel.mkkids; cbn; lia.
  Qed.
  Definition per_split : bool := match it with ISplit => true | _ => false end.
  Definition gains_of (key : site * option nat) (l : list (info * dtree)) : list Qc := flat_map (fun xt => gains name per_split key xt.2) l.
  Lemma add_imps_nodup l : forall imp, NoDup imp.*1 -> NoDup (fold_left add_imp l imp).*1.
  Proof. induction l as [|e l IH]; intros imp ND; [exact ND|]. cbn [fold_left]. apply IH. now apply dict_set_NoDup. Qed.
  Lemma add_imps_get l : forall imp key, dict_get key (fold_left add_imp l imp) =
    add_all (dict_get key imp) (map snd (List.filter (fun kx : site * option nat * Qc => bool_decide (kx.1 = key)) l)).
  Proof.
    induction l as [|[key' x] l IH]; intros imp key; [reflexivity|]. cbn [fold_left List.filter fst]. rewrite IH. unfold add_imp at 1. cbn [fst snd].
    case_bool_decide as Ek.
    - subst key'. rewrite dict_get_set_eq. cbn [map snd].
      assert (X : Some (match dict_get key imp with Some x => x | None => zq 0 end + x)%Qc = add_all (dict_get key imp) [x]).
      { unfold add_all, qsum. cbn [foldr]. f_equal. rewrite zq_0. destruct (dict_get key imp); ring. }
      rewrite X, add_all_app. reflexivity.
    - rewrite dict_get_set_ne by congruence. reflexivity.
  Qed.
  Lemma gains_kids key l : forall num, Permutation (gains_of key l)
    (map snd (List.filter (fun kx : site * option nat * Qc => bool_decide (kx.1 = key)) (flat_map (incs sname it) (number num l))) ++ gains_of key (kids (number num l))).
  Proof.
    unfold gains_of. induction l as [|[x t] l IH]; intros num; [constructor|]. cbn [TreeLevel.number]. unfold TreeLevel.kids in *. cbn [flat_map].
    rewrite List.filter_app, map_app, flat_map_app. specialize (IH (match t with TSplit _ _ _ _ _ _ _ => num + 2 | TLeaf _ _ _ => num end)).
    rewrite IH. cbn [snd]. set (A := map snd (List.filter _ (flat_map _ (number _ l)))). set (B := flat_map _ (flat_map _ (number _ l))).
    destruct t as [w G H|w G H c g t1 t2]; unfold incs, TreeLevel.mkkids; cbn [fst snd gains List.filter map flat_map app].
    - reflexivity.
    - rewrite app_nil_r. assert (EI : (if per_split then zq 1 else g) = inc_of it g) by (unfold per_split, inc_of; destruct it; reflexivity).
      destruct (decide (_ = key)) as [D|D]; [rewrite bool_decide_eq_true_2 by exact D|rewrite bool_decide_eq_false_2 by exact D]; cbn [map snd app]; rewrite ?EI.
      + constructor. rewrite <- !app_assoc, (app_assoc (gains _ _ _ t1)). rewrite (Permutation_app_swap_app (_ ++ _) A B). now rewrite <- !app_assoc.
      + rewrite <- !app_assoc, (app_assoc (gains _ _ _ t1)). rewrite (Permutation_app_swap_app (_ ++ _) A B). now rewrite <- !app_assoc.
  Qed.

  (** ** All levels *)
  Definition Mb (gm : dict nat mval) (hm : nat -> dict nat mval) (own : option nat) (id f b : nat) : Prop :=
    (exists pts, c_points (cfg_of gcfg hcfg own) !! f = Some pts /\ b < length pts) /\
    match own with None => dict_get id gm = Some (MBin b) | Some i => i < nh /\ dict_get id (hm i) = Some (MBin b) end.
  Definition wget (w : option (dtable K Qc)) (k : K) : option Qc := match w with Some w0 => tget w0 k | None => None end.
  Definition nok (gm : dict nat mval) (hm : nat -> dict nat mval) (nd : node) : Prop :=
    (n_leaf nd = true /\ n_fid nd = None) \/ exists own f b, n_leaf nd = false /\ n_site nd = name own /\ n_fid nd = Some f /\ Mb gm hm own (n_id nd) f b.

  Record lev_inv (d : nat) (l : list (info * dtree)) (queue : list node) (st : @gstate K) (pos : dtable K disp) (masks : nat -> dict nat mval) : Prop := {
    v_ids : map iid l = seq (length (t_nodes st)) (length l);
    v_num : Datatypes.S (t_num st) = length (t_nodes st) + length l;
    v_queue : Forall2 qnode queue (map fst l);
    v_pos : pos_ok U pos (map idS (map fst l));
    v_grown : Forall (grown d) l;
    v_mask : NoDup (t_mask st).*1;
    v_masks : forall i, i < nh -> NoDup (masks i).*1;
    v_wf : forall w0, t_weights st = Some w0 -> dt_wf w0;
    v_free : forall k v, tget pos k = Some v -> wget (t_weights st) k = None }.

  Record lev_post (l : list (info * dtree)) (st : @gstate K) (masks : nat -> dict nat mval) (st' : @gstate K) (masks' : nat -> dict nat mval) : Prop := {
    o_ext : exists T2, t_nodes st' = t_nodes st ++ T2 /\ (forall j nd, T2 !! j = Some nd -> n_id nd = length (t_nodes st) + j) /\
      Forall (nok (t_mask st') masks') T2 /\ flat_map children T2 = seq (t_num st + 1) (t_num st' - t_num st) /\ length T2 = sizes l /\
      t_num st <= t_num st' /\ Datatypes.S (t_num st') = length (t_nodes st') /\ (forall nd c, nd ∈ T2 -> c ∈ children nd -> n_id nd < c);
    o_repr : forall x t, (x, t) ∈ l -> repr name (t_nodes st') (Mb (t_mask st') masks') (i_id x) t;
    o_keep : forall id, id < length (t_nodes st) -> dict_get id (t_mask st') = dict_get id (t_mask st);
    o_keeps : forall id i, id < length (t_nodes st) -> i < nh -> dict_get id (masks' i) = dict_get id (masks i);
    o_mask : NoDup (t_mask st').*1;
    o_masks : forall i, i < nh -> NoDup (masks' i).*1;
    o_wf : forall w0, t_weights st' = Some w0 -> dt_wf w0;
    o_some : l <> [] \/ t_weights st <> None -> t_weights st' <> None;
    o_old : forall k v, wget (t_weights st) k = Some v -> wget (t_weights st') k = Some v;
    o_new : forall x t k, (x, t) ∈ l -> k ∈ U -> i_S x k = true -> wget (t_weights st') k = Some (route t k);
    o_only : forall k v, wget (t_weights st') k = Some v -> wget (t_weights st) k = Some v \/ k ∈ U;
    o_imp : forall key, dict_get key (t_imp st') = add_all (dict_get key (t_imp st)) (gains_of key l);
    o_high : forall id, length (t_nodes st') <= id -> dict_get id (t_mask st') = dict_get id (t_mask st);
    o_impnd : NoDup (t_imp st).*1 -> NoDup (t_imp st').*1 }.

  Lemma lev_done d queue st pos masks : lev_inv d [] queue st pos masks -> lev_post [] st masks st masks.
  Proof.
    intros V. split.
    - exists []. rewrite app_nil_r, Nat.sub_diag. pose proof (v_num _ _ _ _ _ _ V) as N. cbn in N.
      repeat split; [intros j nd Hj; now rewrite lookup_nil in Hj|constructor|lia|lia|]. intros nd c X. inversion X.
    - intros x t Hx. inversion Hx.
    - reflexivity.
    - reflexivity.
    - apply V.
    - apply V.
    - apply V.
    - intros [X|X]; [contradiction|exact X].
    - auto.
    - intros x t k Hx. inversion Hx.
    - auto.
    - reflexivity.
    - reflexivity.
    - auto.
  Qed.

  Lemma grown_splits d l : Forall (grown d) l -> exists os, Forall2 (fun x o => split_at x = Ok o) (map fst l) os /\
    forall j x w G H c g t1 t2, l !! j = Some (x, TSplit w G H c g t1 t2) -> os !! j = Some (Some (c, g)).
  Proof.
    induction 1 as [|[x t] l Hx Hl (os & IH1 & IH2)]; [exists []; split; [constructor|intros j * Hj; now rewrite lookup_nil in Hj]|].
    destruct (grown_inv _ _ _ _ _ _ _ _ _ _ _ _ _ Hx) as (w & o & _ & Ho & Ht). exists (o :: os). split; [now constructor|].
    intros [|j] x0 w0 G0 H0 c g t1 t2; cbn; [|apply IH2]. intros [= -> ->]. destruct Ht as (_ & _ & _ & -> & _). reflexivity.
  Qed.

  Lemma mknode_id (e : item) : n_id (mknode e) = iid e.1.
  Proof. unfold TreeLevel.mknode. destruct (e.1.2); reflexivity. Qed.

  Section One.
    Context (d : nat) (l : list (info * dtree)) (queue : list node) (T : list node) (mk : dict nat mval) (num : nat) (w : option (dtable K Qc)) (imp : dict (site * option nat) Qc).
    Context (pos : dtable K disp) (masks : nat -> dict nat mval) (V : lev_inv d l queue (GState T mk num w imp) pos masks).
    Let l3 : list item := number num l.
    Context (masks1 : nat -> dict nat mval) (w' : dtable K Qc).
    Context (NDm1 : forall i, i < nh -> NoDup (masks1 i).*1).
    Context (KEEP1 : forall i id, i < nh -> id ∉ map i_id (map fst l) -> dict_get id (masks1 i) = dict_get id (masks i)).
    Context (HMASK : forall i e w0 G0 H0 c g t1 t2, i < nh -> e ∈ l3 -> e.1.2 = TSplit w0 G0 H0 c g t1 t2 -> ch_own c = Some i -> dict_get (iid e.1) (masks1 i) = Some (MBin (ch_bin c))).
    Context (Gw' : forall k v, tget w' k = Some v <-> (match w with Some w0 => tget w0 k | None => None end = Some v) \/
           (match w with Some w0 => tget w0 k | None => None end = None /\ exists e, at_item U num l k e /\ gdisp guest hosts sname e k = DLeaf v)).
    Let st1 : @gstate K := GState (T ++ map mknode l3) (fold_left gmask l3 mk) (num + length (kids l3)) (Some w') (fold_left add_imp (flat_map (incs sname it) l3) imp).

    Lemma level_next qnew pos' : dt_wf w' -> Forall2 qnode qnew (map fst (kids l3)) -> dt_wf pos' -> (forall k v, tget pos' k = Some v <-> target U guest hosts num l k v) ->
      forall d', d = Datatypes.S d' \/ kids l3 = [] -> lev_inv d' (kids l3) qnew st1 pos' masks1.
    Proof.
      intros Ww' QN' Wpos Gpos. pose proof V as [IDS NUM QN PO GR NDg NDm WFw FREE]. cbn [t_nodes t_mask t_num t_weights t_imp] in *.
      pose proof (kids_pos U nh gcfg hcfg guest hosts sname gh ghc vg vh eg eh rep dec gdec genc rnd rt TR d num l GR pos' Wpos Gpos) as PO'. fold l3 in PO'.
      assert (L3 : length l3 = length l) by apply number_length.
      pose proof (items_nodup num l T IDS) as ND3. fold l3 in ND3.
      destruct (gmask_get l3 mk ND3) as (GM1 & GM2 & GM3).
      intros d' Hd'. split; cbn [st1 t_nodes t_mask t_num t_weights t_imp].
        - rewrite app_length, map_length, L3. unfold l3. rewrite kids_ids. f_equal. lia.
        - rewrite app_length, map_length, L3. lia.
        - exact QN'.
        - exact PO'.
        - destruct Hd' as [->| ->]; [|constructor]. exact (kids_grown U gcfg guest hosts vg vh eg eh rnd rt (Datatypes.S d') num l GR d' eq_refl).
        - now apply GM1.
        - exact NDm1.
        - intros w0 [= <-]. exact Ww'.
        - intros k v Hv. apply Gpos in Hv as (e & w0 & G0 & H0 & c & g & t1 & t2 & He & Et & ->). cbn [wget].
          destruct (tget w' k) as [v0|] eqn:Ew'; [exfalso|reflexivity]. apply Gw' in Ew'.
          pose proof (item_pos U num l pos PO k e He) as Hp. apply FREE in Hp. unfold wget in Hp. destruct Ew' as [X|[_ (e' & He' & X)]]; [congruence|].
          assert (e' = e) as -> by exact (at_uniq U num l T pos IDS PO k e' e He' He). unfold gdisp in X. rewrite Et in X. destruct (ch_own c); discriminate.
    Qed.

    Lemma level_post st' masks' : lev_post (kids l3) st1 masks1 st' masks' -> lev_post l (GState T mk num w imp) masks st' masks'.
    Proof.
      intros PT. pose proof V as [IDS NUM QN PO GR NDg NDm WFw FREE]. cbn [t_nodes t_mask t_num t_weights t_imp] in *.
      assert (L3 : length l3 = length l) by apply number_length.
      pose proof (items_nodup num l T IDS) as ND3. fold l3 in ND3.
      destruct (gmask_get l3 mk ND3) as (GM1 & GM2 & GM3).
      assert (INL : forall e, e ∈ l3 -> length T <= iid e.1 < length T + length l).
      { intros e He. assert (X : iid e.1 ∈ map iid l) by (apply (elem_of_list_fmap_1 iid); exact (item_in num l e He)).
        rewrite IDS in X. apply elem_of_list_In, in_seq in X. lia. }
      assert (ITEMS : forall x t, (x, t) ∈ l -> exists m, (x, t, m) ∈ l3).
      { intros x t Hx. rewrite <- (number_fst l num) in Hx. apply elem_of_list_fmap in Hx as ([xt m] & -> & He). now exists m. }
      destruct PT as [(T2 & X1 & X2 & X3 & X4 & X5 & X6 & X7 & X8) Y2 Y3 Y4 Y5 Y6 Y7 Y8 Y9 Y10 Y11 Y12 Y13 Y14]. cbn [st1 t_nodes t_mask t_num t_weights t_imp] in *.
      assert (LT1 : length (T ++ map mknode l3) = length T + length l) by (rewrite app_length, map_length; lia).
      assert (MB : forall e w0 G0 H0 c g t1 t2, e ∈ l3 -> e.1.2 = TSplit w0 G0 H0 c g t1 t2 -> Mb (t_mask st') masks' (ch_own c) (iid e.1) (ch_fid c) (ch_bin c)).
      { intros e w0 G0 H0 c g t1 t2 He Et. pose proof (INL e He) as L. pose proof (item_good U nh gcfg hcfg guest hosts sname gh ghc vg vh eg eh rep dec gdec genc rnd rt TR d num l GR e _ _ _ _ _ _ _ He Et) as GD.
        destruct GD as (? & pts & _ & _ & Hpts & Hb & Li). split; [exists pts; auto|]. destruct (ch_own c) as [i|] eqn:Eo.
        - split; [exact Li|]. rewrite Y4 by (exact Li || lia). eapply HMASK; eauto.
        - rewrite Y3 by lia. eapply GM3; eauto. }
      split; cbn [t_nodes t_mask t_num t_weights t_imp].
      + exists (map mknode l3 ++ T2). rewrite X1, app_assoc. split; [reflexivity|]. split; [|split; [|split; [|split; [|split; [|split]]]]].
        * intros j nd Hj. apply lookup_app_Some in Hj as [Hj|[Lj Hj]].
          -- rewrite map_lookup in Hj. destruct (l3 !! j) as [e|] eqn:Ej; [|discriminate]. cbn in Hj. injection Hj as <-. rewrite mknode_id.
             assert (A : map iid l !! j = Some (iid e.1)) by (rewrite <- (number_fst l num), map_map, map_lookup; fold l3; rewrite Ej; reflexivity).
             rewrite IDS in A. now apply lookup_seq in A as [A _].
          -- rewrite (X2 _ _ Hj), LT1, map_length, L3. rewrite map_length in Lj. lia.
        * apply Forall_app. split; [|exact X3]. apply Forall_map, Forall_forall. intros e He. unfold compose. pose proof (MB e) as MBe.
          unfold nok. rewrite mknode_id. unfold TreeLevel.mknode. destruct (e.1.2) as [w0 G0 H0|w0 G0 H0 c g t1 t2] eqn:Et; [left; split; reflexivity|right].
          exists (ch_own c), (ch_fid c), (ch_bin c). cbn. repeat (split; [reflexivity|]). exact (MBe _ _ _ _ _ _ _ He eq_refl).
        * rewrite flat_map_app, children_items, X4. unfold l3 at 1. rewrite kids_ids. fold l3.
          replace (num + length (kids l3) + 1) with (num + 1 + length (kids l3)) by lia. rewrite <- seq_app. f_equal. lia.
        * rewrite app_length, map_length, L3, X5. symmetry. apply sizes_kids.
        * lia.
        * rewrite X7, X1, !app_length, map_length. reflexivity.
        * intros nd c Hn Hc. apply elem_of_app in Hn as [Hn|Hn]; [|now apply X8]. apply elem_of_list_fmap in Hn as (e & -> & He). rewrite mknode_id.
          pose proof (INL e He). pose proof (number_bound guest hosts l num e He) as [NB _].
          unfold TreeLevel.mknode, children in Hc. destruct (e.1.2); cbn in Hc; [inversion Hc|]. apply elem_of_cons in Hc as [->|Hc]; [lia|]. apply elem_of_list_singleton in Hc. lia.
      + intros x t Hx. destruct (ITEMS x t Hx) as (m & He). pose proof (item_node sname num l T IDS _ He) as HN. fold l3 in HN.
        assert (HN' : t_nodes st' !! i_id x = Some (mknode (x, t, m))) by (rewrite X1; apply lookup_app_l_Some; exact HN).
        pose proof (INL _ He) as LI. pose proof (number_bound guest hosts l num _ He) as [NB1 _]. cbn [fst snd iid] in *.
        destruct t as [w0 G0 H0|w0 G0 H0 c g t1 t2].
        * apply repr_leaf. exact HN'.
        * unfold iid in LI. cbn in LI. apply (repr_split _ _ _ _ _ _ _ _ _ _ _ (m + 1) (m + 2)).
          -- exact HN'.
          -- exact (MB _ _ _ _ _ _ _ _ He eq_refl).
          -- lia.
          -- lia.
          -- apply (Y2 (Info (m + 1) (goes left_of (i_S x) c) (ch_g c) (ch_h c))). apply kids_elem. eexists. split; [exact He|]. left.
          -- apply (Y2 (Info (m + 2) (goes right_of (i_S x) c) (G0 - ch_g c)%Qc (H0 - ch_h c)%Qc)). apply kids_elem. eexists. split; [exact He|]. right. left.
      + intros id Hid. rewrite Y3 by lia. apply GM2. intros X. apply elem_of_list_fmap in X as (e & -> & He). pose proof (INL e He). lia.
      + intros id i Hid Hi. rewrite Y4 by (exact Hi || lia). apply KEEP1; [exact Hi|]. rewrite map_map. change (id ∉ map iid l). rewrite IDS.
        intros X. apply elem_of_list_In, in_seq in X. lia.
      + exact Y5.
      + exact Y6.
      + exact Y7.
      + intros _. apply Y8. right. discriminate.
      + intros k v Hk. apply Y9. cbn [wget]. apply Gw'. left. exact Hk.
      + intros x t k Hx Ku HS. destruct (ITEMS x t Hx) as (m & He). assert (AT : at_item U num l k (x, t, m)) by (split; [exact He|split; assumption]).
        destruct t as [w0 G0 H0|w0 G0 H0 c g t1 t2].
        * apply Y9. cbn [wget]. apply Gw'. right. split; [exact (FREE _ _ (item_pos U num l pos PO k _ AT))|]. exists (x, TLeaf w0 G0 H0, m). split; [exact AT|reflexivity].
        * pose proof (item_good U nh gcfg hcfg guest hosts sname gh ghc vg vh eg eh rep dec gdec genc rnd rt TR d num l GR _ _ _ _ _ _ _ _ He eq_refl) as GD.
          cbn [TreeSpec.route]. fold (side c k). destruct (side c k) eqn:Es.
          -- apply (Y10 (Info (m + 1) (goes left_of (i_S x) c) (ch_g c) (ch_h c))); [|exact Ku|].
             ++ apply kids_elem. eexists. split; [exact He|]. left.
             ++ cbn [i_S]. rewrite goes_left_side with (nh := nh) (gcfg := gcfg) (hcfg := hcfg) (U := U) by exact GD. now rewrite HS, Es.
          -- apply (Y10 (Info (m + 2) (goes right_of (i_S x) c) (G0 - ch_g c)%Qc (H0 - ch_h c)%Qc)); [|exact Ku|].
             ++ apply kids_elem. eexists. split; [exact He|]. right. left.
             ++ cbn [i_S]. rewrite goes_right_side with (nh := nh) (gcfg := gcfg) (hcfg := hcfg) (U := U) by exact GD. now rewrite HS, Es.
      + intros k v Hk. apply Y11 in Hk as [Hk|Hk]; [|now right]. cbn [wget] in Hk. apply Gw' in Hk as [Hk|[_ (e & He & _)]]; [left; exact Hk|right; apply He].
      + intros key. rewrite Y12, add_imps_get, add_all_app. apply add_all_perm. symmetry. apply gains_kids.
      + intros id Hid. rewrite Y13 by exact Hid. apply GM2. intros X. apply elem_of_list_fmap in X as (e & -> & He). pose proof (INL e He). rewrite X1, app_length in Hid. lia.
      + intros ND. apply Y14. now apply add_imps_nodup.
    Qed.
  End One.

  Lemma levels_ok (SOME : 0 < nh) d : forall l queue st pos masks, lev_inv d l queue st pos masks -> exists st' masks',
    @runs msg R S nh _ _ (guest_levels nh gcfg it gh dec gdec genc (Datatypes.S d) st queue pos)
      (fun i => host_levels O (sname i) (hcfg i) (Datatypes.S d) ghc (masks i)) st' masks' /\ lev_post l st masks st' masks'.
  Proof.
    induction d as [d IHd] using lt_wf_ind. intros l queue st pos masks V.
    pose proof (Forall2_length _ _ _ (v_queue _ _ _ _ _ _ V)) as LQ. rewrite map_length in LQ.
    destruct queue as [|q0 queue0] eqn:Equeue.
    { destruct l; [|discriminate]. exists st, masks. split; [|exact (lev_done _ _ _ _ _ V)].
      cbn [guest_levels host_levels]. apply (runs_bcast_as nh as_queue (MQueue (map n_id [])) []); [reflexivity|]. apply runs_ret. }
    rewrite <- Equeue in *. assert (NEl : l <> []) by (intros ->; subst queue; discriminate).
    destruct st as [T mk num w imp]. pose proof V as [IDS NUM QN PO GR NDg NDm WFw FREE]. cbn [t_nodes t_mask t_num t_weights t_imp] in *.
    set (l3 := number num l).
    destruct (grown_splits d l GR) as (os & BS & OSP).
    destruct (with_positions_ok U gcfg pos _ PO) as (dbn & Edbn & _).
    assert (exists dbns, forall i, i < nh -> with_positions (c_data (hcfg i)) pos = Ok (dbns i)) as (dbns & Edbns).
    { apply (fin_choice nh (fun i x => with_positions (c_data (hcfg i)) pos = Ok x) SOME). intros i Hi.
      destruct (with_positions_ok U (hcfg i) pos _ PO) as (x & Ex & _). eauto. }
    assert (NDids : NoDup (map i_id (map fst l))).
    { rewrite map_map. change (NoDup (map iid l)). rewrite IDS. apply NoDup_ListNoDup, seq_NoDup. }
    destruct (level_batches pos (map fst l) queue os dbn dbns masks SOME PO QN NDids BS Edbn Edbns NDm) as (bs & masks1 & Ebs & Ebsi & RB & NDm1 & KEEP1 & SET1).
    destruct (update_queue_ok U nh gcfg hcfg guest hosts sname gh ghc vg vh eg eh rep dec gdec genc rnd rt TR it d l Hit GR queue os [] T mk num w imp [] QN BS) as (qnew & EU & QN').
    cbn [length app] in EU. fold (update_queue (c_par gcfg) it (match d with 0 => true | _ => false end) (map to_si os) (GState T mk num w imp) queue) in EU.
    fold l3 in EU, QN'.
    destruct (redispatch_local_ok U nh gcfg hcfg guest hosts sname gh ghc vg vh eg eh rep dec gdec genc rnd rt TR d num l T pos IDS PO GR mk (num + length (kids l3)) w
      (fold_left add_imp (flat_map (incs sname it) l3) imp) dbn WFw Edbn) as (to_host & r2 & w' & ERL & Wth & W2 & Ww' & Gth & G2 & Gw').
    fold l3 in ERL, Gth, G2, Gw'.
    assert (HMASK : forall i e w0 G0 H0 c g t1 t2, i < nh -> e ∈ l3 -> e.1.2 = TSplit w0 G0 H0 c g t1 t2 -> ch_own c = Some i -> dict_get (iid e.1) (masks1 i) = Some (MBin (ch_bin c))).
    { intros i e w0 G0 H0 c g t1 t2 Hi He Et Hc. apply elem_of_list_lookup in He as (j & Hj).
      assert (Hl : l !! j = Some e.1) by (rewrite <- (number_fst l num), map_lookup; fold l3; rewrite Hj; reflexivity).
      destruct e as [[x t] m]. cbn [fst snd] in *. subst t. apply (SET1 j x c g i Hi); [now rewrite map_lookup, Hl| |exact Hc]. eapply OSP. exact Hl. }
    assert (exists ans : nat -> dtable K disp, forall i, i < nh -> dt_join (host_dispatch (sname i) (masks1 i) (c_zero (hcfg i))) to_host (c_data (hcfg i)) = Ok (ans i) /\ dt_wf (ans i) /\
        forall k, match tget to_host k with
                  | None => tget (ans i) k = None
                  | Some v => exists v', tget (ans i) k = Some v' /\
                      match v with DHost _ _ sn _ _ _ => if decide (sn = sname i) then target U guest hosts num l k v' else v' = v | _ => False end
                  end) as (ans & HA).
    { apply (fin_choice nh (fun i a => dt_join (host_dispatch (sname i) (masks1 i) (c_zero (hcfg i))) to_host (c_data (hcfg i)) = Ok a /\ dt_wf a /\
        forall k, match tget to_host k with
                  | None => tget a k = None
                  | Some v => exists v', tget a k = Some v' /\
                      match v with DHost _ _ sn _ _ _ => if decide (sn = sname i) then target U guest hosts num l k v' else v' = v | _ => False end
                  end) SOME). intros i Hi.
      apply (host_answer U nh gcfg hcfg guest hosts sname gh ghc vg vh eg eh rep dec gdec genc rnd rt TR d num l GR (masks1 i) i to_host Hi); [|exact Wth|exact Gth].
      intros e w0 G0 H0 c g t1 t2. now apply HMASK. }
    destruct (merge_ok U nh gcfg hcfg guest hosts sname gh ghc vg vh eg eh rep dec gdec genc rnd rt TR d num l T pos IDS PO GR to_host r2 W2 Gth G2 ans) as (pos' & Epos & Wpos & Gpos);
      [intros i Hi; apply (HA i Hi)|intros i k Hi; apply (HA i Hi)|exact SOME|].
    set (st1 := GState (T ++ map mknode l3) (fold_left gmask l3 mk) (num + length (kids l3)) (Some w') (fold_left add_imp (flat_map (incs sname it) l3) imp)).
    (* the rest of the levels *)
    assert (REST : exists st' masks', @runs msg R S nh _ _ (guest_levels nh gcfg it gh dec gdec genc d st1 qnew pos')
       (fun i => host_levels O (sname i) (hcfg i) d ghc (masks1 i)) st' masks' /\ lev_post (kids l3) st1 masks1 st' masks').
    { assert (V' : forall d', d = Datatypes.S d' \/ kids l3 = [] -> lev_inv d' (kids l3) qnew st1 pos' masks1).
      { exact (level_next d l queue T mk num w imp pos masks V masks1 w' NDm1 Gw' qnew pos' Ww' QN' Wpos Gpos). }
      destruct d as [|d'].
      - pose proof (kids_none U gcfg guest hosts vg vh eg eh rnd rt 0 num l GR eq_refl) as KN. fold l3 in KN.
        exists st1, masks1. split; [apply runs_ret|]. pose proof (V' 0 (or_intror KN)) as V0. rewrite KN in *. exact (lev_done _ _ _ _ _ V0).
      - destruct (IHd d' ltac:(lia) (kids l3) qnew st1 pos' masks1 (V' d' (or_introl eq_refl))) as (st' & masks' & RN & PT). eauto. }
    destruct REST as (st' & masks' & RR & PT). exists st', masks'. split.
    - (* the messages of this level *)
      cbn [guest_levels host_levels].
      apply (runs_bcast_as nh as_queue (MQueue (map n_id queue)) (map n_id queue)); [reflexivity|].
      rewrite Equeue. cbn [map]. rewrite <- Equeue. change (n_id q0 :: map n_id queue0) with (map n_id (q0 :: queue0)). rewrite <- Equeue.
      apply (runs_bcast_as nh as_pos (MPos pos) pos); [reflexivity|].
      eapply runs_glift; [exact Edbn|]. eapply runs_glift; [exact Ebs|].
      eapply (runs_hlift nh _ dbns); [exact Edbns|]. eapply (runs_hlift nh _ (fun _ => map (map n_id) bs)); [exact Ebsi|].
      refine (runs_seq nh _ _ _ _ _ _ _ _ RB _).
      eapply runs_glift; [exact EU|]. cbn [fst snd]. eapply runs_glift; [exact ERL|]. cbn [fst snd].
      apply (runs_bcast_as nh as_disp (MDisp to_host) to_host); [reflexivity|].
      eapply (runs_hlift nh _ ans); [intros i Hi; apply (HA i Hi)|].
      apply (runs_gather_as nh as_dispr (fun i => MDispR (ans i)) ans); [reflexivity|].
      eapply runs_glift; [exact Epos|]. exact RR.
    - exact (level_post d l queue T mk num w imp pos masks V masks1 w' KEEP1 HMASK Gw' st' masks' PT).
  Qed.

  (** ** The whole fit *)
  Lemma sums_ok : U <> [] -> grad_hess_sum gh = Ok (sum_if (fun _ => true) vg U, sum_if (fun _ => true) vh U).
  Proof.
    intros NE. destruct (tr_gh TR) as (W & KS & V). unfold grad_hess_sum.
    rewrite (reduce_some (fun x y => ((x.1 + y.1)%Qc, (x.2 + y.2)%Qc))) by reflexivity.
    assert (P : Permutation (dt_keys gh) U) by (apply NoDup_Permutation; [exact W|exact NDU|exact KS]).
    assert (EV : map snd (dt_data gh) = map (fun k => (vg k, vh k)) (dt_keys gh)).
    { unfold dt_keys. change (fmap fst (dt_data gh)) with (map fst (dt_data gh)). rewrite map_map. apply map_ext_in. intros [k c] Hk. cbn. apply V. now apply elem_of_list_In. }
    rewrite EV. rewrite <- (sum_if_perm _ vg _ _ P), <- (sum_if_perm _ vh _ _ P).
    destruct (dt_keys gh) as [|k0 ks] eqn:Ek; [apply Permutation_nil in P; now subst|].
    cbn [map fold1]. f_equal.
    assert (X : forall ks a b, fold_left (fun x y : Qc * Qc => ((x.1 + y.1)%Qc, (x.2 + y.2)%Qc)) (map (fun k => (vg k, vh k)) ks) (a, b) =
      ((a + sum_if (fun _ => true) vg ks)%Qc, (b + sum_if (fun _ => true) vh ks)%Qc)).
    { clear. induction ks as [|k ks IH]; intros a b; cbn [fold_left map].
      - unfold sum_if, HistSpec.qsum. cbn [List.filter map qsum foldr]. rewrite zq_0. f_equal; ring.
      - rewrite IH. unfold sum_if, HistSpec.qsum. cbn [List.filter map qsum foldr fst snd]. f_equal; ring. }
    rewrite X. unfold sum_if, HistSpec.qsum. cbn [List.filter map qsum foldr]. reflexivity.
  Qed.

  (** The owner of a node keeps the real split value of the bin. *)
  Definition Mr (gm : dict nat mval) (hm : nat -> dict nat mval) (own : option nat) (id f b : nat) : Prop :=
    exists pts x, c_points (cfg_of gcfg hcfg own) !! f = Some pts /\ pts !! b = Some x /\
      match own with None => dict_get id gm = Some (MReal x) | Some i => i < nh /\ dict_get id (hm i) = Some (MReal x) end.

  Record fit_post (t : dtree) (st : @gstate K) (hm : nat -> dict nat mval) : Prop := {
    f_repr : repr name (t_nodes st) (Mr (t_mask st) hm) 0 t;
    f_size : length (t_nodes st) = tsize t;
    f_num : Datatypes.S (t_num st) = length (t_nodes st);
    f_ids : forall j nd, t_nodes st !! j = Some nd -> n_id nd = j;
    f_children : flat_map children (t_nodes st) = seq 1 (length (t_nodes st) - 1);
    f_later : forall nd c, nd ∈ t_nodes st -> c ∈ children nd -> n_id nd < c;
    f_weights : exists w, t_weights st = Some w /\ dt_wf w /\ forall k v, tget w k = Some v <-> k ∈ U /\ v = route t k;
    f_imp : forall key, dict_get key (t_imp st) = add_all None (gains name per_split key t);
    f_masks : forall i id, i < nh -> (is_Some (dict_get id (hm i)) <-> exists nd, t_nodes st !! id = Some nd /\ n_leaf nd = false /\ n_site nd = sname i);
    f_gmask : forall id, is_Some (dict_get id (t_mask st)) -> id < length (t_nodes st);
    f_fids : forall nd f, nd ∈ t_nodes st -> n_fid nd = Some f -> exists own, match own with None => True | Some i => i < nh end /\ f < length (c_points (cfg_of gcfg hcfg own));
    f_impnd : NoDup (t_imp st).*1 }.

  Section Ends.
    Context (d : nat) (t : dtree) (w : Qc).
    Let G : Qc := sum_if (fun _ => true) vg U.
    Let H : Qc := sum_if (fun _ => true) vh U.
    Let x : info := Info 0 (fun _ : K => true) G H.

    Lemma fit_init : learn U lam mi guest hosts vg vh eg eh rnd rt d = Ok t -> sweight lam G H = Ok w ->
      exists pos, dt_mapValues (fun _ => Ok (DGo 1 0)) (c_data gcfg) = Ok pos /\
        lev_inv d [(x, t)] [Node 0 GuestSite None w false G H None None] (GState [] [] 0 None []) pos (fun _ => []).
    Proof.
      intros EL Ew.
    pose proof (tr_guest TR) as PG.
    destruct (dt_mapValues_rel (fun _ => Ok (DGo 1 0)) (fun _ _ (v : disp) => v = DGo 1 0) (c_data gcfg) (po_wf _ _ _ PG)) as (pos & Epos & Wpos & Kpos & Gpos).
    { intros k v _. eauto. }
    assert (GP : forall k v, tget pos k = Some v <-> k ∈ U /\ v = DGo 1 0).
    { intros k v. split.
      - intros Hv. specialize (Gpos k). rewrite Hv in Gpos. destruct (tget (c_data gcfg) k) eqn:Ek; [|easy]. split; [|exact Gpos]. apply (po_keys _ _ _ PG). eapply tget_key; eauto.
      - intros [Hk ->]. apply (po_keys _ _ _ PG), tget_is_Some in Hk as (r & Hr). specialize (Gpos k). rewrite Hr in Gpos. destruct (tget pos k); [now subst|easy]. }
      exists pos. split; [exact Epos|].
split; cbn [t_nodes t_mask t_num t_weights t_imp map length app fst].
      - reflexivity.
      - reflexivity.
      - constructor; [|constructor]. exists w. auto.
      - split; [exact Wpos|apply NoDup_singleton| |].
        + intros k v Hv. apply GP in Hv as [Hk ->]. split; [exact Hk|]. exists 0, (fun _ => true). split; [left|auto].
        + intros id S0 k Hin Hk _. apply elem_of_list_singleton in Hin. injection Hin as -> _. apply GP. auto.
      - constructor; [exact EL|constructor].
      - constructor.
      - intros i _. constructor.
      - discriminate.
      - reflexivity.
    Qed.

    Lemma fit_finish st masks : lev_post [(x, t)] (GState [] [] 0 None []) (fun _ => []) st masks ->
      exists gm hm, guest_convert (c_points gcfg) (t_nodes st) (t_mask st) = Ok gm /\
        (forall i, i < nh -> host_convert (sname i) (c_points (hcfg i)) (t_nodes st) (masks i) = Ok (hm i)) /\
        fit_post t (GState (t_nodes st) gm (t_num st) (t_weights st) (t_imp st)) hm.
    Proof.
      intros [(T2 & X1 & X2 & X3 & X4 & X5 & X6 & X7 & X8) Y2 _ _ Y5 Y6 Y7 Y8 _ Y10 Y11 Y12 Y13 Y14].
    cbn [t_nodes t_mask t_num t_weights t_imp app length] in *. subst T2.
    assert (IDJ : forall j nd, t_nodes st !! j = Some nd -> n_id nd = j) by (intros j nd Hj; rewrite (X2 j nd Hj); lia).
    assert (NDT : NoDup (map n_id (t_nodes st))).
    { apply NoDup_alt. intros i j id Hi Hj. rewrite map_lookup in Hi, Hj. destruct (t_nodes st !! i) as [a|] eqn:Ea, (t_nodes st !! j) as [b|] eqn:Eb; try discriminate.
      cbn in Hi, Hj. injection Hi as Hi. injection Hj as Hj. rewrite (IDJ _ _ Ea) in Hi. rewrite (IDJ _ _ Eb) in Hj. congruence. }
    assert (NOK : forall nd, nd ∈ t_nodes st -> nok (t_mask st) masks nd) by (apply Forall_forall; exact X3).
    (* the guest's values *)
    set (selg := fun nd => negb (n_leaf nd) && bool_decide (n_site nd = GuestSite)).
    destruct (convert_fold (fun m nd => if n_leaf nd then Ok m else match n_site nd with GuestSite => convert_node (c_points gcfg) m nd | _ => Ok m end) selg (c_points gcfg)) with (T := t_nodes st) (m := t_mask st)
      as (gm & Egm & _ & Kgm & Ggm).
    { intros m nd. unfold selg. destruct (n_leaf nd); [reflexivity|]. destruct (n_site nd); [rewrite bool_decide_eq_true_2 by reflexivity|rewrite bool_decide_eq_false_2 by discriminate]; reflexivity. }
    { exact NDT. }
    { intros nd Hn Hs. unfold selg in Hs. apply andb_true_iff in Hs as [Hl Hs]. apply bool_decide_eq_true in Hs. destruct (NOK nd Hn) as [[Hl' _]|(own & f & b & _ & En & Ef & (pts & Hp & Lb) & Hm)]; [now rewrite Hl' in Hl|].
      destruct own as [i|]; [destruct Hm as [Hi _]; cbn in En; exfalso; apply (tr_names TR i Hi); congruence|]. exists f, b, pts. auto. }
    (* the hosts' values *)
    assert (exists hm, forall i, i < nh -> host_convert (sname i) (c_points (hcfg i)) (t_nodes st) (masks i) = Ok (hm i) /\
      (forall id f b pts v, (exists nd, t_nodes st !! id = Some nd /\ n_leaf nd = false /\ n_site nd = sname i /\ n_fid nd = Some f) ->
         dict_get id (masks i) = Some (MBin b) -> c_points (hcfg i) !! f = Some pts -> pts !! b = Some v -> dict_get id (hm i) = Some (MReal v)) /\
      (forall id, is_Some (dict_get id (hm i)) <-> exists nd, t_nodes st !! id = Some nd /\ n_leaf nd = false /\ n_site nd = sname i)) as (hm & Hhm).
    { apply (fin_choice_any [] nh (fun i m => host_convert (sname i) (c_points (hcfg i)) (t_nodes st) (masks i) = Ok m /\
      (forall id f b pts v, (exists nd, t_nodes st !! id = Some nd /\ n_leaf nd = false /\ n_site nd = sname i /\ n_fid nd = Some f) ->
         dict_get id (masks i) = Some (MBin b) -> c_points (hcfg i) !! f = Some pts -> pts !! b = Some v -> dict_get id m = Some (MReal v)) /\
      (forall id, is_Some (dict_get id m) <-> exists nd, t_nodes st !! id = Some nd /\ n_leaf nd = false /\ n_site nd = sname i))).
      intros i Hi. set (sel := fun nd => negb (n_leaf nd) && bool_decide (n_site nd = sname i)).
      assert (NM : forall nd, nd ∈ t_nodes st -> sel nd = true -> exists f b pts, n_fid nd = Some f /\ dict_get (n_id nd) (masks i) = Some (MBin b) /\ c_points (hcfg i) !! f = Some pts /\ b < length pts).
      { intros nd Hn Hs. unfold sel in Hs. apply andb_true_iff in Hs as [Hl Hs]. apply bool_decide_eq_true in Hs. destruct (NOK nd Hn) as [[Hl' _]|(own & f & b & _ & En & Ef & (pts & Hp & Lb) & Hm)]; [now rewrite Hl' in Hl|].
        destruct own as [i'|]; [|cbn in En; exfalso; apply (tr_names TR i Hi); congruence]. destruct Hm as [Hi' Hm]. cbn in En.
        assert (i' = i) as -> by (apply (tr_inj TR); [exact Hi'|exact Hi|congruence]). exists f, b, pts. auto. }
      destruct (convert_fold (fun m nd => if n_leaf nd then Ok m else if decide (n_site nd = sname i) then convert_node (c_points (hcfg i)) m nd else Ok m) sel (c_points (hcfg i))) with (T := t_nodes st) (m := masks i)
        as (m & Em & Nm & _ & Gm); [|exact NDT|exact NM|].
      { intros m nd. unfold sel. destruct (n_leaf nd); [reflexivity|]. destruct (decide (n_site nd = sname i)); [rewrite bool_decide_eq_true_2 by assumption|rewrite bool_decide_eq_false_2 by assumption]; reflexivity. }
      specialize (Nm (Y6 i Hi)). unfold host_convert. rewrite Em. cbn [mbind res_bind]. fold sel.
      assert (US : forall id, id ∈ map n_id (List.filter sel (t_nodes st)) <-> exists nd, t_nodes st !! id = Some nd /\ n_leaf nd = false /\ n_site nd = sname i).
      { intros id. split.
        - intros Hin. apply elem_of_list_fmap in Hin as (nd & -> & Hn). apply elem_of_list_In, filter_In in Hn as [Hn Hs]. apply elem_of_list_In, elem_of_list_lookup in Hn as (j & Hj).
          rewrite (IDJ _ _ Hj). exists nd. split; [exact Hj|]. unfold sel in Hs. apply andb_true_iff in Hs as [Hl Hs]. apply bool_decide_eq_true in Hs. split; [now apply negb_true_iff|exact Hs].
        - intros (nd & Hn & Hl & Hs). apply elem_of_list_fmap. exists nd. rewrite (IDJ _ _ Hn). split; [reflexivity|]. apply elem_of_list_In, filter_In.
          split; [apply elem_of_list_In; eapply elem_of_list_lookup_2; eauto|]. unfold sel. rewrite Hl, Hs. now rewrite bool_decide_eq_true_2. }
      assert (VAL : forall id f b pts v, (exists nd, t_nodes st !! id = Some nd /\ n_leaf nd = false /\ n_site nd = sname i /\ n_fid nd = Some f) ->
         dict_get id (masks i) = Some (MBin b) -> c_points (hcfg i) !! f = Some pts -> pts !! b = Some v -> dict_get id m = Some (MReal v)).
      { intros id f b pts v (nd & Hn & Hl & Hs & Hf) Hb Hp Hv. rewrite <- (IDJ _ _ Hn) in Hb |- *. apply (Gm nd f b pts v); try assumption.
        - eapply elem_of_list_lookup_2; eauto.
        - unfold sel. rewrite Hl, Hs. now rewrite bool_decide_eq_true_2. }
      eexists. split; [reflexivity|]. split.
      - intros id f b pts v Hn Hb Hp Hv. rewrite dict_get_filter_keys by exact Nm. rewrite (VAL id f b pts v Hn Hb Hp Hv). cbn [fst].
        rewrite bool_decide_eq_true_2; [reflexivity|]. apply US. destruct Hn as (nd & ? & ? & ? & _). eauto.
      - intros id. rewrite dict_get_filter_keys by exact Nm. rewrite <- US. split.
        + intros [v Hv]. destruct (dict_get id m); [|discriminate]. cbn [fst] in Hv. destruct (bool_decide_reflect (id ∈ map n_id (List.filter sel (t_nodes st)))); [assumption|discriminate].
        + intros Hin. pose proof Hin as Hin'. apply US in Hin as (nd & Hn & Hl & Hs). pose proof (elem_of_list_lookup_2 _ _ _ Hn) as Hin.
          assert (Es : sel nd = true) by (unfold sel; rewrite Hl, Hs; now rewrite bool_decide_eq_true_2). destruct (NM nd Hin Es) as (f & b & pts & Ef & Eb & Ep & Lb).
          rewrite (IDJ _ _ Hn) in Eb. apply lookup_lt_is_Some in Lb as (v & Ev). rewrite (VAL id f b pts v) by eauto 10. cbn [fst]. rewrite bool_decide_eq_true_2 by exact Hin'. eauto. }
    exists gm, hm. split; [exact Egm|]. split; [intros i Hi; apply (Hhm i Hi)|].
    split; cbn [t_nodes t_mask t_num t_weights t_imp].
      + apply (repr_mono _ _ (Mb (t_mask st) masks)); [|apply (Y2 x t); left]. intros own id f b (nd & Hn & Hl & Hs & Hf) ((pts & Hp & Lb) & Hm).
        apply lookup_lt_is_Some in Lb as (v & Ev). exists pts, v. split; [exact Hp|]. split; [exact Ev|]. destruct own as [i|].
        * destruct Hm as [Hi Hm]. split; [exact Hi|]. apply (proj1 (proj2 (Hhm i Hi)) id f b pts v); eauto 10.
        * rewrite <- (IDJ _ _ Hn) in Hm |- *. apply (Ggm nd f b pts v); try assumption; [eapply elem_of_list_lookup_2; eauto|]. unfold selg. cbn in Hs. rewrite Hl, Hs. reflexivity.
      + rewrite X5. cbn. lia.
      + exact X7.
      + exact IDJ.
      + rewrite X4. f_equal. lia.
      + exact X8.
      + destruct (t_weights st) as [w0|] eqn:Ew0; [|exfalso; apply Y8; [left; discriminate|reflexivity]].
        exists w0. split; [reflexivity|]. split; [now apply Y7|]. intros k v. split.
        * intros Hv. destruct (Y11 k v Hv) as [X|Ku]; [discriminate|]. split; [exact Ku|]. pose proof (Y10 x t k ltac:(left) Ku eq_refl) as R1. cbn [wget] in R1. congruence.
        * intros [Ku ->]. exact (Y10 x t k ltac:(left) Ku eq_refl).
      + intros key. rewrite Y12. unfold gains_of. cbn. now rewrite app_nil_r.
      + intros i id Hi. apply (Hhm i Hi).
      + intros id Hs. destruct (decide (id < length (t_nodes st))) as [L|L]; [exact L|]. exfalso. rewrite Kgm, Y13 in Hs by (lia || (intros X; apply elem_of_list_fmap in X as (nd & -> & Hn);
          apply elem_of_list_In, filter_In in Hn as [Hn _]; apply elem_of_list_In, elem_of_list_lookup in Hn as (j & Hj); rewrite (IDJ _ _ Hj) in L; apply lookup_lt_Some in Hj; lia)).
        destruct Hs as [v Hv]. discriminate Hv.
      + intros nd f Hn Ef. destruct (NOK nd Hn) as [[_ X]|(own & f' & b & _ & _ & Ef' & (pts & Hp & _) & Hm)]; [congruence|]. assert (f' = f) as -> by congruence.
        exists own. split; [destruct own; [apply Hm|exact I]|]. eapply lookup_lt_Some; eauto.
      + apply Y14. constructor.
    Qed.
  End Ends.

  Lemma fit_ok enc_gh d t : 0 < nh -> U <> [] -> enc_gh gh = Ok ghc -> c_depth gcfg = Datatypes.S d ->
    learn U lam mi guest hosts vg vh eg eh rnd rt d = Ok t -> exists st hm,
    @runs msg R S nh _ _ (guest_fit nh gcfg it gh enc_gh dec gdec genc) (fun i => host_fit O (sname i) (hcfg i)) st (fun i => (t_nodes st, hm i)) /\ fit_post t st hm.
  Proof.
    intros SOME NE EE ED EL. set (G := sum_if (fun _ => true) vg U) in *. set (H := sum_if (fun _ => true) vh U) in *.
    destruct (grow_weight U gcfg guest hosts vg vh eg eh rnd rt d _ _ _ _ EL) as (w & Ew).
    destruct (fit_init d t w EL Ew) as (pos & Epos & V).
    destruct (levels_ok SOME d _ _ _ _ _ V) as (st & masks & RL & PT).
    destruct (fit_finish t st masks PT) as (gm & hm & Egm & Hhm & FP).
    exists (GState (t_nodes st) gm (t_num st) (t_weights st) (t_imp st)), hm. split.
    - unfold guest_fit, host_fit.
      eapply runs_glift; [exact EE|]. apply (runs_bcast_as nh as_gh (MGH ghc) ghc); [reflexivity|].
      eapply runs_glift; [exact (sums_ok NE)|]. cbn [fst snd]. fold G H. eapply runs_glift; [rewrite sweight_model; exact Ew|].
      eapply runs_glift; [exact Epos|]. rewrite ED. cbv zeta.
      refine (runs_seq nh _ _ _ _ _ _ _ _ _ _); [|].
      + eapply runs_ext; [reflexivity| |reflexivity|exact RL]. intros i c Hi. cbn beta. rewrite (tr_depth TR i Hi), ED. reflexivity.
      + apply (runs_bcast_as nh as_tree (MTree (t_nodes st)) (t_nodes st)); [reflexivity|].
        eapply runs_glift; [exact Egm|]. eapply (runs_hlift nh _ hm); [exact Hhm|]. apply runs_ret.
    - exact FP.
  Qed.
End Fit.
