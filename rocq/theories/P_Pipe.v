(** C65. *)
From Verif Require Import PipeMain P_Boost P_Binning P_Tree P_Predict TreeRun.
Local Open Scope nat_scope.

Section Pipe.
  Context {K N : Type} `{EqDecision K} `{EqDecision N}.
  Context (rnd : Qc -> Qc) (pred : loss_kind -> list Qc -> list Qc) (lossf : loss_kind -> dtable K nat -> dtable K (list Qc) -> Qc).
  Context (nh : nat) (g : source K N) (hs : nat -> source K N) (sname : nat -> site) (it : imp_type).
  Context (P : bparams) (bp : bin_params) (par : sparams) (depth stp d : nat) (labels : dtable K label) (ls : list label).
  Context (gdraw : nat -> nat -> nat -> list nat) (hdraw : nat -> nat -> nat -> nat -> list nat).
  Local Notation U := (dt_keys (so_rows g)).
  Local Notation fit_result := (heap * (list label * nat * loss_kind) * @bstate K)%type.
  Local Notation host_result := (heap * (nat * list tree_pb))%type.
  Local Notation legal := (legal rnd pred nh g hs sname P bp par depth stp d labels ls gdraw hdraw).

  (** fit at all parties, with plain numbers and with Paillier. *)
  Definition fit_plain_sys : sys (msg K Qc Qc) fit_result host_result :=
    sysof nh (guest_job rnd pred lossf P bp par depth stp nh it gdraw (fun _ => Ok) Ok Ok (fun _ _ _ x => Ok x) (so_header g) (so_heap g) (so_rows g) labels Ret)
      (fun i => host_job P bp par depth stp qops (sname i) (hdraw i) (so_header (hs i)) (so_heap (hs i)) (so_rows (hs i)) Ret).
  Definition fit_paillier_sys (sk : privkey) (rg rh : nat -> K -> Z) (rr : nat -> nat -> nat -> Z) : sys (msg K cell enum) fit_result host_result :=
    sysof nh (guest_job rnd pred lossf P bp par depth stp nh it gdraw (fun j => enc_table (sk_n sk) (rg j) (rh j)) (pdec sk) (fun e => pdec sk (CEnc e)) (fun j => pgenc (sk_n sk) (rr j))
        (so_header g) (so_heap g) (so_rows g) labels Ret)
      (fun i => host_job P bp par depth stp pops (sname i) (hdraw i) (so_header (hs i)) (so_heap (hs i)) (so_rows (hs i)) Ret).
  (** predict at all parties, with the models that fit has left. *)
  Definition host_model (hres : list host_result) (i : nat) : nat * list tree_pb := match hres !! i with Some r => r.2 | None => (0, []) end.
  Definition predict_job_sys (res : fit_result) (hres : list host_result) (g' : source K N) (hs' : nat -> source K N) (labels' : dtable K label) (threshold : Qc) (fuel : nat)
      : sys (msg K Qc Qc) (heap * dtable K (label * label * Qc)) heap :=
    sysof nh (guest_predict_job rnd pred P nh fuel res.1.2 (bs_trees res.2) threshold (so_heap g') (so_rows g') labels' Ret)
      (fun i => host_predict_job fuel (sname i) (host_model hres i) (so_heap (hs' i)) (so_rows (hs' i)) Ret).

  Local Notation dim := (if decide (2 < length ls) then length ls else 1).
  Local Notation kind := (if decide (length ls = 2) then Sigmoid else Softmax).

  (** The score of row [k] of new data after [n] rounds: the rows walk down the trees, comparing their own values with the split
      points. *)
  Definition tree_at (gpts : list (list Qc)) (hpts : nat -> list (list Qc)) (T : list dtree) (j : nat) : ptree :=
    match T !! j with Some t => cut (all_points gpts hpts) t | None => PL (zq 0) end.
  Definition score_of (gpts : list (list Qc)) (hpts : nat -> list (list Qc)) (T : list dtree) (n : nat) (g' : source K N) (hs' : nat -> source K N) (k : K) : list Qc :=
    scores rnd (b_lr P) dim (fun j k => pwalk (joined g' hs' k) (tree_at gpts hpts T j)) n k.
  (** The outcome of training: [T] are the trees; the others describe what they were learnt from. [eg], [eh], [rn], [rt] are the
      effects of encoding, as in C40. *)
  Record fitted (eg eh : (K -> Qc) -> K -> Qc) (rn : Qc -> Qc) (rt : Qc -> res Qc) (classes : list label) (lab : K -> nat) (gpts : list (list Qc)) (hpts : nat -> list (list Qc))
      (guest : party K) (hosts : list (party K)) (T : list dtree) (res : fit_result) (hres : list host_result) : Prop := {
    ft_classes : distinct (dt_values labels) classes /\ forall i j a b, classes !! i = Some a -> classes !! j = Some b -> (i < j <-> before a b);
    ft_labels : forall k l, (k, l) ∈ dt_data labels -> classes !! lab k = Some l;
    ft_model : res.1.2 = (classes, dim, kind);
    ft_guest : sees bp par g gpts guest /\ overwritten g guest res.1.1;
    ft_hosts : length hosts = nh /\ length hres = nh /\ forall i p r, hosts !! i = Some p -> hres !! i = Some r -> sees bp par (hs i) (hpts i) p /\ overwritten (hs i) p r.1;
    ft_trees : boosted U guest hosts lab kind dim rnd (b_lr P) pred
      (fun j vg vh t => exists gv hv, sample_valid_features (length (so_header g)) (b_rate P) (gdraw j) = Ok gv /\
         (forall i, i < nh -> sample_valid_features (length (so_header (hs i))) (b_rate P) (hdraw i j) = Ok (hv i)) /\
         learn U (reg_lambda par) (min_impurity par) (with_valid guest gv) (hosts_with hosts hv) vg vh (eg vg) (eh vh) rn rt d = Ok t) T;
    ft_shape : forall t, t ∈ T -> owners_in nh t /\ tdepth t <= d;
    ft_rounds : length T = length (bs_hist res.2) * dim /\ stops rnd (b_early P) (b_tol P) (b_rounds P) (bs_hist res.2);
    ft_losses : forall q x, bs_hist res.2 !! q = Some x -> exists y yp, NoDup (dt_keys y) /\ (forall k i, (k, i) ∈ dt_data y <-> k ∈ U /\ i = lab k) /\ x = lossf kind y yp /\
      NoDup (dt_keys yp) /\ forall k p, (k, p) ∈ dt_data yp <-> k ∈ U /\ p = pred kind (score_of gpts hpts T (S q) g hs k) }.
  (** Predictions for any tables of row objects. *)
  Definition predicts (classes : list label) (gpts : list (list Qc)) (hpts : nat -> list (list Qc)) (T : list dtree) (res : fit_result) (hres : list host_result) : Prop :=
    forall g' hs' labels' threshold fuel, rows_ok g' -> (forall i, i < nh -> rows_ok (hs' i)) -> NoDup (dt_keys labels') -> d < fuel ->
    exists out heaps n, (forall m s, nsteps step m (predict_job_sys res hres g' hs' labels' threshold fuel) s -> m <= n /\ nsteps step (n - m) s (done out heaps)) /\
      realigned g' out.1 /\ length heaps = nh /\ (forall i h, heaps !! i = Some h -> realigned (hs' i) h) /\ NoDup (dt_keys out.2) /\
      forall k l c x, (k, (l, c, x)) ∈ dt_data out.2 <->
        (k, l) ∈ dt_data labels' /\ k ∈ dt_keys (so_rows g') /\
        (forall t, t ∈ T -> guest_only (joined g' hs' k) (cut (all_points gpts hpts) t) \/ forall i, i < nh -> k ∈ dt_keys (so_rows (hs' i))) /\
        answer classes threshold (pred kind (score_of gpts hpts T (length (bs_hist res.2)) g' hs' k)) c x.

  (** The same as a run of the two programs, for use inside a longer program. *)
  Definition predict_runs (C E R S : Type) (classes : list label) (gpts : list (list Qc)) (hpts : nat -> list (list Qc)) (T : list dtree) (res : fit_result) (hm : nat -> nat * list tree_pb) : Prop :=
    forall g' hs' labels' threshold fuel, rows_ok g' -> (forall i, i < nh -> rows_ok (hs' i)) -> NoDup (dt_keys labels') -> d < fuel ->
    exists gh out al, @runs (msg K C E) R S nh _ _ (guest_predict_job rnd pred P nh fuel res.1.2 (bs_trees res.2) threshold (so_heap g') (so_rows g') labels')
         (fun i => host_predict_job fuel (sname i) (hm i) (so_heap (hs' i)) (so_rows (hs' i))) (gh, out) al /\
      realigned g' gh /\ (forall i, i < nh -> realigned (hs' i) (al i)) /\ NoDup (dt_keys out) /\
      forall k l c x, (k, (l, c, x)) ∈ dt_data out <->
        (k, l) ∈ dt_data labels' /\ k ∈ dt_keys (so_rows g') /\
        (forall t, t ∈ T -> guest_only (joined g' hs' k) (cut (all_points gpts hpts) t) \/ forall i, i < nh -> k ∈ dt_keys (so_rows (hs' i))) /\
        answer classes threshold (pred kind (score_of gpts hpts T (length (bs_hist res.2)) g' hs' k)) c x.

  (** *** Proofs *)
  Section Out.
    Context (LE : legal) (eg eh : (K -> Qc) -> K -> Qc) (rn : Qc -> Qc) (rt : Qc -> res Qc) (y : dtable K nat) (lab : K -> nat) (T : list dtree) (st : @bstate K) (ht : nat -> list tree_pb).
    Local Notation bdim := (if 2 <? length ls then length ls else 1).
    Local Notation bkind := (if length ls =? 2 then Sigmoid else Softmax).
    Local Notation cf := (cfg bp par depth stp).
    Local Notation pty := (pty bp par depth stp).
    Local Notation pts := (pts_of bp par depth stp).
    Local Notation hosts := (hosts_of nh hs bp par depth stp).
    Context (RD : ready rnd pred U nh (cf g) (fun i => cf (hs i)) (pty g) hosts sname P bkind bdim y lab gdraw hdraw d).
    Context (TR : trained rnd pred lossf U nh (cf g) (fun i => cf (hs i)) (pty g) hosts sname it P bkind bdim y lab d (by_values U (cf g) (fun i => cf (hs i)) (pty g) hosts P gdraw hdraw d eg eh rn rt) T st (map (fun i => (bdim, ht i)) (seq 0 nh))).
    Context (classes : list label) (LC : length classes = length ls).
    Local Notation res := ((loaded bp par depth stp g).1, (classes, bdim, bkind), st).
    Local Notation hres := (map (fun i => ((loaded bp par depth stp (hs i)).1, (bdim, ht i))) (seq 0 nh)).
    Local Notation gpts := (pts g).
    Local Notation hpts := (fun i => pts (hs i)).

    Lemma dims : bdim = dim. Proof. destruct (Nat.ltb_spec 2 (length ls)), (decide (2 < length ls)); lia. Qed.
    Lemma kinds : bkind = kind. Proof. destruct (Nat.eqb_spec (length ls) 2), (decide (length ls = 2)); congruence. Qed.
    Lemma cut_pt t : pt_of (cf g) (fun i => cf (hs i)) t = cut (all_points gpts hpts) t.
    Proof.
      induction t as [w G H1|w G H1 c gn l IHl r IHr]; [reflexivity|]. cbn [pt_of cut]. rewrite IHl, IHr. f_equal. unfold thr, all_points, cfg_of. now destruct (ch_own c).
    Qed.
    Lemma jrow_joined (g' : source K N) (hs' : nat -> source K N) gr hr : values_of g' gr -> (forall i, i < nh -> values_of (hs' i) (hr i)) ->
      forall k own f, match own with None => True | Some i => i < nh end -> jrow gr hr k own f = joined g' hs' k own f.
    Proof.
      assert (X : forall (s : source K N) (r : dtable K (dict nat Qc)), values_of s r -> forall k f, match tget r k with Some row => sv_get row f (zq 0) | None => zq 0 end = value s k f).
      { intros s r (W & KS & G) k f. destruct (tget r k) as [row|] eqn:E.
        - apply tget_elem in E; [|exact W]. now apply G.
        - unfold value. apply tget_None in E. rewrite KS in E. apply tget_None in E. unfold tget in E. now rewrite E. }
      intros VG VH k [i|] f Ho; unfold jrow, joined; apply X; auto.
    Qed.
    Lemma owned_walk x y' t : owners_in nh t -> (forall own f, match own with None => True | Some i => i < nh end -> x own f = y' own f) ->
      pwalk x (cut (all_points gpts hpts) t) = pwalk y' (cut (all_points gpts hpts) t) /\ (guest_only x (cut (all_points gpts hpts) t) <-> guest_only y' (cut (all_points gpts hpts) t)).
    Proof.
      intros OI XY. induction t as [w G H1|w G H1 c gn l IHl r IHr]; [split; reflexivity|]. cbn [cut owners_in pwalk guest_only] in *. destruct OI as (Oc & Ol & Or).
      destruct (IHl Ol) as [A1 A2], (IHr Or) as [B1 B2]. assert (Oc' : match ch_own c with None => True | Some i => i < nh end) by (destruct (ch_own c); auto).
      rewrite (XY (ch_own c) (ch_fid c) Oc'), A1, B1. split; [reflexivity|]. destruct (ch_own c); [reflexivity|]. rewrite (XY None _ Logic.I). now destruct (qleb _ _).
    Qed.
    Lemma good j t : T !! j = Some t -> walks U nh (cf g) (fun i => cf (hs i)) (pty g) hosts t /\ owners_in nh t /\ tdepth t <= d.
    Proof. exact (trained_good rnd pred lossf U nh (cf g) (fun i => cf (hs i)) (pty g) hosts sname it P bkind bdim y lab gdraw hdraw d RD _ T st _ TR j t). Qed.

    Lemma out_eq n k : n <= length (bs_hist st) -> k ∈ U -> scores rnd (b_lr P) bdim (wt (pty g) hosts T) n k = score_of gpts hpts T n g hs k.
    Proof.
      intros Hn Hk. unfold score_of. rewrite <- dims. pose proof (le_guest _ _ _ _ _ _ _ _ _ _ _ _ _ _ _ _ LE) as SG. pose proof (le_hosts _ _ _ _ _ _ _ _ _ _ _ _ _ _ _ _ LE) as SH.
      destruct (trained_counts rnd pred lossf U nh (cf g) (fun i => cf (hs i)) (pty g) hosts sname it P bkind bdim y lab d _ T st _ TR) as (LT & _).
      apply scores_ext. intros j Hj. destruct (lookup_lt_is_Some_2 T j) as [t Ht]; [nia|]. unfold wt, tree_at. rewrite Ht. destruct (good j t Ht) as (WK & OI & _).
        destruct (align_ok g) as (h0 & gr & _ & _ & VG & _); [apply SG|].
        set (hr := fun i => match data_alignment (so_heap (hs i)) (so_rows (hs i)) with Ok p => match view row_values p.1 p.2 with Ok r => r | Err _ => DT [] end | Err _ => DT [] end).
        assert (VH : forall i, i < nh -> values_of (hs i) (hr i)).
        { intros i Li. destruct (align_ok (hs i)) as (h1 & r & E1 & E2 & V & _); [apply (SH i Li)|]. unfold hr. rewrite E1. cbn [fst snd]. now rewrite E2. }
        rewrite <- (WK gr hr (proj1 (proj2 (proj2 (proj2 (proj2 (loaded_ok bp par depth stp g SG))))) gr VG) (fun i Li => proj1 (proj2 (proj2 (proj2 (proj2 (loaded_ok bp par depth stp (hs i) (SH i Li)))))) (hr i) (VH i Li)) k Hk).
        rewrite cut_pt. apply owned_walk; [exact OI|]. intros own f' Ho. now apply jrow_joined.
    Qed.
    Lemma out_fitted : distinct (dt_values labels) classes -> (forall i j a b, classes !! i = Some a -> classes !! j = Some b -> (i < j <-> before a b)) ->
      (forall k l, (k, l) ∈ dt_data labels -> classes !! lab k = Some l) -> fitted eg eh rn rt classes lab gpts hpts (pty g) hosts T res hres.
    Proof.
      intros DC OC LB. pose proof (le_guest _ _ _ _ _ _ _ _ _ _ _ _ _ _ _ _ LE) as SG. pose proof (le_hosts _ _ _ _ _ _ _ _ _ _ _ _ _ _ _ _ LE) as SH.
      destruct (loaded_ok bp par depth stp g SG) as (_ & SE & OV & _ & _ & CP & _). split.
      - auto.
      - exact LB.
      - cbn [fst snd]. now rewrite dims, kinds.
      - auto.
      - split; [unfold hosts_of; now rewrite map_length, seq_length|]. split; [now rewrite map_length, seq_length|]. intros i p r Hp Hr. apply hosts_at in Hp as [Li ->].
        rewrite map_lookup, lookup_seq_lt in Hr by exact Li. cbn in Hr. injection Hr as <-. destruct (loaded_ok bp par depth stp (hs i) (SH i Li)) as (_ & A & B & _). auto.
      - pose proof (trained_boosted rnd pred lossf U nh (cf g) (fun i => cf (hs i)) (pty g) hosts sname it P bkind bdim y lab d _ T st _ TR) as B. rewrite <- dims, <- kinds.
        eapply boosted_mono; [|exact B]. cbv beta. intros j vg vh t Et. exists (gvalid (cf g) P gdraw j), (hvalid (fun i => cf (hs i)) P hdraw j).
        destruct (gvalid_ok rnd pred U nh (cf g) (fun i => cf (hs i)) (pty g) hosts sname P bkind bdim y lab gdraw hdraw d RD j) as [GV _].
        assert (LG : length (c_points (cf g)) = length (so_header g)) by apply SE. rewrite LG in GV. split; [exact GV|]. split.
        + intros i Li. destruct (hvalid_ok rnd pred U nh (cf g) (fun i => cf (hs i)) (pty g) hosts sname P bkind bdim y lab gdraw hdraw d RD i j Li) as [HV _].
          destruct (loaded_ok bp par depth stp (hs i) (SH i Li)) as (_ & A & _). assert (LI : length (c_points (cf (hs i))) = length (so_header (hs i))) by apply A. rewrite LI in HV. exact HV.
        + unfold by_values in Et. rewrite CP in Et. exact Et.
      - intros t Ht. apply elem_of_list_lookup in Ht as [j Hj]. apply (good j t Hj).
      - destruct (trained_counts rnd pred lossf U nh (cf g) (fun i => cf (hs i)) (pty g) hosts sname it P bkind bdim y lab d _ T st _ TR) as (A & _). cbn [snd]. rewrite <- dims. split; [exact A|].
        exact (tr_stops _ _ _ _ _ _ _ _ _ _ _ _ _ _ _ _ _ _ _ _ _ TR).
      - intros q x Hx. cbn [snd] in Hx. destruct (tr_losses _ _ _ _ _ _ _ _ _ _ _ _ _ _ _ _ _ _ _ _ _ TR q x Hx) as (yp & -> & WP & GP). destruct (rd_y _ _ _ _ _ _ _ _ _ _ _ _ _ _ _ _ _ RD) as (WY & KY & GY). exists y, yp. rewrite <- kinds.
        split; [exact WY|]. split. { intros k i. split; [intros Hi; split; [apply KY; unfold dt_keys; apply elem_of_list_fmap; exists (k, i); auto|eauto]|]. intros [Hk ->]. apply KY in Hk. unfold dt_keys in Hk. apply elem_of_list_fmap in Hk as ([k' i] & -> & Hi). cbn [fst]. rewrite <- (GY _ _ Hi). exact Hi. }
        split; [reflexivity|]. split; [exact WP|]. intros k p. rewrite <- tget_elem by exact WP. rewrite GP. apply lookup_lt_Some in Hx. split; intros [Hk ->]; (split; [exact Hk|]); f_equal; [|symmetry]; apply out_eq; auto; lia.
    Qed.

    Lemma out_scores k f : (k, f) ∈ dt_data (bs_F st) <-> k ∈ U /\ f = score_of gpts hpts T (length (bs_hist st)) g hs k.
    Proof.
      destruct (trained_scores rnd pred lossf U nh (cf g) (fun i => cf (hs i)) (pty g) hosts sname it P bkind bdim y lab d _ T st _ TR) as [_ TS]. rewrite TS.
      split; intros (Hk & ->); (split; [exact Hk|]); [now apply out_eq|symmetry; now apply out_eq].
    Qed.
    Lemma out_runs C E R S : predict_runs C E R S classes gpts hpts T res (fun i => (bdim, ht i)).
    Proof.
      intros g' hs' labels' threshold fuel RG RH WL HF. destruct (align_ok g' RG) as (gh & gr & EG1 & EG2 & VG & AG).
      set (al := fun i => match data_alignment (so_heap (hs' i)) (so_rows (hs' i)) with Ok p => match view row_values p.1 p.2 with Ok r => (p.1, r) | Err _ => ([], DT []) end | Err _ => ([], DT []) end).
      assert (VH : forall i, i < nh -> data_alignment (so_heap (hs' i)) (so_rows (hs' i)) = Ok ((al i).1, so_rows (hs' i)) /\ view row_values (al i).1 (so_rows (hs' i)) = Ok (al i).2 /\ values_of (hs' i) (al i).2 /\ realigned (hs' i) (al i).1).
      { intros i Li. destruct (align_ok (hs' i) (RH i Li)) as (h1 & r & E1 & E2 & V & A). unfold al. rewrite E1. cbn [fst snd]. rewrite E2. auto. }
      destruct (trained_counts rnd pred lossf U nh (cf g) (fun i => cf (hs i)) (pty g) hosts sname it P bkind bdim y lab d _ T st _ TR) as (LT & LB & _ & LR).
      set (pt := fun j => match T !! j with Some t => pt_of (cf g) (fun i => cf (hs i)) t | None => PL (zq 0) end).
      pose proof (rd_dim _ _ _ _ _ _ _ _ _ _ _ _ _ _ _ _ _ RD) as D0.
      assert (HT : forall i, i < nh -> length (ht i) = length T).
      { intros i Li. destruct (LR i (bdim, ht i)) as [_ X]; [rewrite map_lookup, lookup_seq_lt by exact Li; reflexivity|exact X]. }
      destruct (score_ok (C := C) (E := E) (R := R) (S := S) rnd nh sname (b_lr P) bdim (le_names _ _ _ _ _ _ _ _ _ _ _ _ _ _ _ _ LE) (le_inj _ _ _ _ _ _ _ _ _ _ _ _ _ _ _ _ LE)
        gr (fun i => (al i).2) (proj1 VG) (fun i Hi => proj1 (proj1 (proj2 (proj2 (VH i Hi))))) (length (bs_hist st)) (bs_trees st) ht pt fuel D0) as (F & RU & WF & GF).
      { congruence. }
      { intros i Li. rewrite HT; auto. }
      { intros j Hj. destruct (lookup_lt_is_Some_2 T j) as [t Ht]; [lia|].
        destruct (trained_stored rnd pred lossf U nh (cf g) (fun i => cf (hs i)) (pty g) hosts sname it P bkind bdim y lab d _ T st _ TR j t Ht) as (gg & hh & Eg & Eh & S1 & S2).
        exists gg, hh. split; [exact Eg|]. split. { intros i Li. specialize (Eh i Li). rewrite htrees_map in Eh by exact Li. auto. }
        unfold pt. rewrite Ht. split; [exact S1|]. rewrite pt_depth. destruct (good j t Ht) as (_ & _ & DT'). lia. }
      assert (XJ : forall k own f, match own with None => True | Some i => i < nh end -> jrow gr (fun i => (al i).2) k own f = joined g' hs' k own f).
      { apply jrow_joined; [exact VG|]. intros i Li. apply (VH i Li). }
      assert (SC : forall k, scores rnd (b_lr P) bdim (fun j k => pwalk (jrow gr (fun i => (al i).2) k) (pt j)) (length (bs_hist st)) k = score_of gpts hpts T (length (bs_hist st)) g' hs' k).
      { intros k. unfold score_of. rewrite <- dims. apply scores_ext. intros j Hj. destruct (lookup_lt_is_Some_2 T j) as [t Ht]; [lia|]. unfold pt, tree_at. rewrite Ht, cut_pt. destruct (good j t Ht) as (_ & OI & _).
        apply owned_walk; [exact OI|]. intros own f Ho. now apply XJ. }
      assert (GF' : forall k v, (k, v) ∈ dt_data F <-> k ∈ dt_keys (so_rows g') /\ (forall t, t ∈ T -> guest_only (joined g' hs' k) (cut (all_points gpts hpts) t) \/ forall i, i < nh -> k ∈ dt_keys (so_rows (hs' i))) /\
                 v = score_of gpts hpts T (length (bs_hist st)) g' hs' k).
      { intros k v. rewrite <- tget_elem by exact WF. rewrite GF, SC, (proj1 (proj2 VG)).
        assert (KE : forall j t, T !! j = Some t -> (BoostMain.kept nh gr (fun i => (al i).2) pt k j <-> guest_only (joined g' hs' k) (cut (all_points gpts hpts) t) \/ forall i, i < nh -> k ∈ dt_keys (so_rows (hs' i)))).
        { intros j t Ht. unfold BoostMain.kept, pt. rewrite Ht, cut_pt. destruct (good j t Ht) as (_ & OI & _). destruct (owned_walk (jrow gr (fun i => (al i).2) k) (joined g' hs' k) t OI (XJ k)) as [_ X]. rewrite X. unfold everywhere.
          assert (Y : (forall i, i < nh -> is_Some (tget (al i).2 k)) <-> forall i, i < nh -> k ∈ dt_keys (so_rows (hs' i))); [|now rewrite Y].
          split; intros Z i Li; specialize (Z i Li).
          - apply tget_is_Some in Z. destruct (VH i Li) as (_ & _ & (_ & KV & _) & _). now rewrite <- KV.
          - apply tget_is_Some. destruct (VH i Li) as (_ & _ & (_ & KV & _) & _). now rewrite KV. }
        split; intros (A & B & D); (split; [exact A|]); (split; [|exact D]).
        - intros t Ht. apply elem_of_list_lookup in Ht as [j Hj]. apply (KE j t Hj). apply B. rewrite <- LT. eapply lookup_lt_Some; eauto.
        - intros j Hj. destruct (lookup_lt_is_Some_2 T j) as [t Ht]; [lia|]. apply (KE j t Ht). apply B. eapply elem_of_list_lookup_2; eauto. }
      assert (LF : forall k f, (k, f) ∈ dt_data F -> length f = bdim).
      { intros k f Hf. apply GF' in Hf as (_ & _ & ->). unfold score_of. rewrite <- dims. unfold scores. now rewrite map_length, seq_length. }
      assert (CN : classes <> []).
      { intros ->. cbn in LC. destruct (rd_parties _ _ _ _ _ _ _ _ _ _ _ _ _ _ _ _ _ RD) as (? & ? & ? & PA). destruct (pa_rows _ _ _ _ _ _ _ _ _ _ PA) as [_ NE].
        destruct U as [|k0 U0] eqn:EU; [congruence|]. destruct (le_keys _ _ _ _ _ _ _ _ _ _ _ _ _ _ _ _ LE) as [_ KS]. assert (X : k0 ∈ dt_keys labels) by (apply KS; rewrite EU; left).
        destruct (le_labels _ _ _ _ _ _ _ _ _ _ _ _ _ _ _ _ LE) as ((_ & DL) & _). destruct ls as [|? ?]; [|discriminate LC]. unfold dt_keys in X. apply elem_of_list_fmap in X as ([k' l] & _ & X).
        assert (Y : l ∈ ([] : list label)) by (apply DL; unfold dt_values; apply elem_of_list_fmap; exists (k', l); auto). inversion Y. }
      destruct (C48_predict classes threshold (pred bkind) labels' F WL WF CN) as (out & EO & WO & GO).
      { intros k f Hf. destruct (le_probs _ _ _ _ _ _ _ _ _ _ _ _ _ _ _ _ LE bkind f) as [-> _]. rewrite (LF k f Hf). rewrite LC.
        assert (length ls <> 0) by (rewrite <- LC; destruct classes; [congruence|discriminate]). destruct (Nat.ltb_spec 2 (length ls)), (decide (length ls = 2)); lia. }
      exists gh, out, (fun i => (al i).1). cbn [fst snd]. split.
      { unfold guest_predict_job, host_predict_job. eapply runs_glift; [exact EG1|]. eapply runs_glift; [exact EG2|]. cbn [fst snd].
        apply (runs_hlift nh _ (fun i => ((al i).1, so_rows (hs' i)))); [intros i Li; apply (VH i Li)|]. cbn [fst snd]. apply (runs_hlift nh _ (fun i => (al i).2)); [intros i Li; apply (VH i Li)|].
        refine (runs_seq nh _ _ _ _ _ _ _ _ RU _). eapply runs_glift; [exact EO|]. apply runs_ret. }
      split; [exact AG|]. split; [intros i Li; apply (VH i Li)|].
      split; [exact WO|]. cbn [fst snd]. intros k l c x. rewrite GO. unfold answer. rewrite <- kinds. split.
      - intros (A & f & i & Hf & Hc & X). apply GF' in Hf as (F1 & F2 & ->). split; [exact A|]. split; [exact F1|]. split; [exact F2|]. exists i. split; [exact Hc|exact X].
      - intros (A & F1 & F2 & i & Hc & X). split; [exact A|]. exists (score_of gpts hpts T (length (bs_hist st)) g' hs' k), i. split; [apply GF'; auto|]. split; [exact Hc|exact X].
    Qed.
    Lemma out_predicts : predicts classes gpts hpts T res hres.
    Proof.
      intros g' hs' labels' threshold fuel RG RH WL HF. destruct (out_runs Qc Qc (heap * dtable K (label * label * Qc)) heap g' hs' labels' threshold fuel RG RH WL HF) as (gh & out & al & ALL & AG & AH & WO & G).
      destruct (runs_done nh _ _ _ _ ALL) as [n RUN]. exists (gh, out), (map al (seq 0 nh)), n. split.
      { intros m s ST. apply RUN. unfold predict_job_sys in ST. cbn [fst snd] in ST.
        rewrite (sysof_ext nh _ (fun i => host_predict_job fuel (sname i) (host_model hres i) (so_heap (hs' i)) (so_rows (hs' i)) Ret) (fun i => host_predict_job fuel (sname i) (bdim, ht i) (so_heap (hs' i)) (so_rows (hs' i)) Ret)) in ST; [exact ST|].
        intros i Li. unfold host_model. rewrite map_lookup, lookup_seq_lt by exact Li. reflexivity. }
      split; [exact AG|]. split; [now rewrite map_length, seq_length|]. split; [|split; [exact WO|exact G]].
      intros i h Hh. rewrite map_lookup in Hh. destruct (seq 0 nh !! i) as [i'|] eqn:E; [|discriminate]. apply lookup_seq in E as [-> Li]. cbn in Hh. injection Hh as <-. now apply AH.
    Qed.
  End Out.

  (** Fit as a run of the programs, inside a longer program with results [R] and [S]. *)
  Definition fit_runs (C E R S : Type) (enc : nat -> dtable K (Qc * Qc) -> res (dtable K (C * C))) (dec : C -> res Qc) (gdec : E -> res Qc)
      (genc : nat -> nat -> nat -> Qc -> res E) (Ops : numops C) (eg eh : (K -> Qc) -> K -> Qc) (rn : Qc -> Qc) (rt : Qc -> res Qc) : Prop :=
    exists res hm classes lab gpts hpts guest hosts T, let hres := map hm (seq 0 nh) in
      @runs (msg K C E) R S nh _ _ (guest_job rnd pred lossf P bp par depth stp nh it gdraw enc dec gdec genc (so_header g) (so_heap g) (so_rows g) labels)
        (fun i => host_job P bp par depth stp Ops (sname i) (hdraw i) (so_header (hs i)) (so_heap (hs i)) (so_rows (hs i))) res hm /\
      fitted eg eh rn rt classes lab gpts hpts guest hosts T res hres /\
      (forall k f, (k, f) ∈ dt_data (bs_F res.2) <-> k ∈ U /\ f = score_of gpts hpts T (length (bs_hist res.2)) g hs k) /\
      predicts classes gpts hpts T res hres /\ forall C' E' R' S', predict_runs C' E' R' S' classes gpts hpts T res (fun i => (hm i).2).
  Lemma plain_fit R S : legal -> it <> IOther ->
    fit_runs Qc Qc R S (fun _ => Ok) Ok Ok (fun _ _ _ x => Ok x) qops (fun v => v) (fun v => v) (fun x => x) Ok.
  Proof.
    intros LE Hit. destruct (labels_ok rnd pred nh g hs sname P bp par depth stp d labels ls gdraw hdraw LE) as (classes & y & lab & EC & DC & LC & OC & LB & LL & WY & KY & GY).
    pose proof (loaded_ready rnd pred nh g hs sname P bp par depth stp d labels ls gdraw hdraw LE y lab LL WY KY GY) as RD.
    destruct (plain_trained_runs (R := R) (S := S) rnd pred lossf U nh _ _ _ _ sname it Hit P _ _ y lab gdraw hdraw d RD) as (T & st & ht & RU & TR).
    pose proof (job_runs rnd pred lossf nh g hs sname it P bp par depth stp d labels ls gdraw hdraw LE classes y _ _ _ _ _ st ht EC RU) as ALL.
    do 2 eexists. exists classes, lab, (pts_of bp par depth stp g), (fun i => pts_of bp par depth stp (hs i)), (pty bp par depth stp g), (hosts_of nh hs bp par depth stp), T. cbv zeta. split; [exact ALL|].
    split; [exact (out_fitted LE _ _ _ _ y lab T st ht RD TR classes LC DC OC LB)|]. split; [exact (out_scores LE _ _ _ _ y lab T st ht RD TR classes LC)|]. split; [exact (out_predicts LE _ _ _ _ y lab T st ht RD TR classes LC)|].
    intros C' E' R' S'. exact (out_runs LE _ _ _ _ y lab T st ht RD TR classes LC C' E' R' S').
  Qed.
  Lemma paillier_fit R S sk rg rh rr : legal -> it <> IOther -> boost_paillier_ok U sk rg rh rr (reg_lambda par) (min_impurity par) d ->
    fit_runs cell enum R S (fun j => enc_table (sk_n sk) (rg j) (rh j)) (pdec sk) (fun e => pdec sk (CEnc e)) (fun j => pgenc (sk_n sk) (rr j)) pops
      (fun v k => leaf_value (sk_n sk) (v k)) (fun v k => leaf_value (sk_n sk) (v k)) fround (prt (sk_n sk)).
  Proof.
    intros LE Hit PK. destruct (labels_ok rnd pred nh g hs sname P bp par depth stp d labels ls gdraw hdraw LE) as (classes & y & lab & EC & DC & LC & OC & LB & LL & WY & KY & GY).
    pose proof (loaded_ready rnd pred nh g hs sname P bp par depth stp d labels ls gdraw hdraw LE y lab LL WY KY GY) as RD.
    destruct (loaded_ok bp par depth stp g (le_guest _ _ _ _ _ _ _ _ _ _ _ _ _ _ _ _ LE)) as (_ & _ & _ & _ & _ & CP & _). rewrite <- CP in PK.
    destruct (paillier_trained_runs (R := R) (S := S) rnd pred lossf U nh _ _ _ _ sname it Hit P _ _ y lab gdraw hdraw d RD sk (proj1 (keypair_good _ _ (bp_key _ _ _ _ _ _ _ _ PK))) (bp_big _ _ _ _ _ _ _ _ PK) rg rh rr
      (bp_rg _ _ _ _ _ _ _ _ PK) (bp_rh _ _ _ _ _ _ _ _ PK) (bp_rr _ _ _ _ _ _ _ _ PK) (bp_rows _ _ _ _ _ _ _ _ PK) (bp_levels _ _ _ _ _ _ _ _ PK) (bp_mi _ _ _ _ _ _ _ _ PK)) as (T & st & ht & RU & TR).
    pose proof (job_runs rnd pred lossf nh g hs sname it P bp par depth stp d labels ls gdraw hdraw LE classes y _ _ _ _ _ st ht EC RU) as ALL.
    do 2 eexists. exists classes, lab, (pts_of bp par depth stp g), (fun i => pts_of bp par depth stp (hs i)), (pty bp par depth stp g), (hosts_of nh hs bp par depth stp), T. cbv zeta. split; [exact ALL|].
    split; [exact (out_fitted LE _ _ _ _ y lab T st ht RD TR classes LC DC OC LB)|]. split; [exact (out_scores LE _ _ _ _ y lab T st ht RD TR classes LC)|]. split; [exact (out_predicts LE _ _ _ _ y lab T st ht RD TR classes LC)|].
    intros C' E' R' S'. exact (out_runs LE _ _ _ _ y lab T st ht RD TR classes LC C' E' R' S').
  Qed.

  (** Fit finishes at all parties on every schedule. The trees it leaves are those of one party that has all columns, learnt from
      the bins of the rows' own values, with the labels numbered in order; the scores of training are those that the rows' own
      values get when they walk down the trees; and the models predict any rows by that walk. *)
  Theorem C65_plain : legal -> it <> IOther ->
    exists res hres classes lab gpts hpts guest hosts T n,
      (forall m s, nsteps step m fit_plain_sys s -> m <= n /\ nsteps step (n - m) s (done res hres)) /\
      fitted (fun v => v) (fun v => v) (fun x => x) Ok classes lab gpts hpts guest hosts T res hres /\
      (forall k f, (k, f) ∈ dt_data (bs_F res.2) <-> k ∈ U /\ f = score_of gpts hpts T (length (bs_hist res.2)) g hs k) /\
      predicts classes gpts hpts T res hres.
  Proof.
    intros LE Hit. destruct (plain_fit fit_result host_result LE Hit) as (res & hm & classes & lab & gpts & hpts & guest & hosts & T & RU & FT & SC & PR & _). destruct (runs_done nh _ _ _ _ RU) as [n RUN].
    exists res, (map hm (seq 0 nh)), classes, lab, gpts, hpts, guest, hosts, T, n. auto.
  Qed.
  Theorem C65_paillier sk rg rh rr : legal -> it <> IOther -> boost_paillier_ok U sk rg rh rr (reg_lambda par) (min_impurity par) d ->
    exists res hres classes lab gpts hpts guest hosts T n,
      (forall m s, nsteps step m (fit_paillier_sys sk rg rh rr) s -> m <= n /\ nsteps step (n - m) s (done res hres)) /\
      fitted (fun v k => leaf_value (sk_n sk) (v k)) (fun v k => leaf_value (sk_n sk) (v k)) fround (prt (sk_n sk)) classes lab gpts hpts guest hosts T res hres /\
      (forall k f, (k, f) ∈ dt_data (bs_F res.2) <-> k ∈ U /\ f = score_of gpts hpts T (length (bs_hist res.2)) g hs k) /\
      predicts classes gpts hpts T res hres.
  Proof.
    intros LE Hit PK. destruct (paillier_fit fit_result host_result sk rg rh rr LE Hit PK) as (res & hm & classes & lab & gpts & hpts & guest & hosts & T & RU & FT & SC & PR & _). destruct (runs_done nh _ _ _ _ RU) as [n RUN].
    exists res, (map hm (seq 0 nh)), classes, lab, gpts, hpts, guest, hosts, T, n. auto.
  Qed.

  (** A new copy of the training rows gets the scores of training. *)
  Lemma again (LE : legal) eg eh rn rt classes lab gpts hpts guest hosts T res hres g' hs' labels' threshold fuel : fitted eg eh rn rt classes lab gpts hpts guest hosts T res hres ->
    (forall k f, (k, f) ∈ dt_data (bs_F res.2) <-> k ∈ U /\ f = score_of gpts hpts T (length (bs_hist res.2)) g hs k) -> predicts classes gpts hpts T res hres ->
    rows_ok g' -> (forall i, i < nh -> rows_ok (hs' i)) -> copy g g' -> (forall i, i < nh -> copy (hs i) (hs' i)) -> NoDup (dt_keys labels') -> d < fuel ->
    exists out heaps n, (forall m s, nsteps step m (predict_job_sys res hres g' hs' labels' threshold fuel) s -> m <= n /\ nsteps step (n - m) s (done out heaps)) /\
      forall k l c x, (k, (l, c, x)) ∈ dt_data out.2 <-> (k, l) ∈ dt_data labels' /\ exists f, (k, f) ∈ dt_data (bs_F res.2) /\ answer res.1.2.1.1 threshold (pred res.1.2.2 f) c x.
  Proof.
    intros FT SC PR RG RH CG CH WL HF. destruct (PR g' hs' labels' threshold fuel RG RH WL HF) as (out & heaps & n & RUN & _ & _ & _ & _ & G). exists out, heaps, n. split; [exact RUN|].
    pose proof (le_same _ _ _ _ _ _ _ _ _ _ _ _ _ _ _ _ LE) as SA.
    assert (X : forall k, k ∈ U -> score_of gpts hpts T (length (bs_hist res.2)) g hs k = score_of gpts hpts T (length (bs_hist res.2)) g' hs' k).
    { intros k Hk. apply scores_ext. intros j Hj. unfold tree_at. destruct (T !! j) as [t|] eqn:Ht; [|reflexivity]. destruct (ft_shape _ _ _ _ _ _ _ _ _ _ _ _ _ FT t) as [OI _]; [eapply elem_of_list_lookup_2; eauto|].
      clear Ht. induction t as [w Gw H1|w Gw H1 c gn l IHl r IHr]; [reflexivity|]. cbn [cut pwalk owners_in] in *. destruct OI as (Oc & Ol & Or). rewrite (IHl Ol), (IHr Or).
      assert (V : joined g hs k (ch_own c) (ch_fid c) = joined g' hs' k (ch_own c) (ch_fid c)); [|now rewrite V]. unfold joined. destruct (ch_own c) as [i|]; symmetry.
      - apply (proj2 (CH i Oc)). apply (SA i k Oc), Hk.
      - apply (proj2 CG), Hk. }
    rewrite (ft_model _ _ _ _ _ _ _ _ _ _ _ _ _ FT). cbn [fst snd]. intros k l c x. rewrite G. split.
    - intros (A & B & _ & D). split; [exact A|]. apply CG in B. exists (score_of gpts hpts T (length (bs_hist res.2)) g hs k). split; [apply SC; auto|]. rewrite (X k B). exact D.
    - intros (A & f & Hf & D). apply SC in Hf as (Hk & ->). split; [exact A|]. split; [now apply CG|]. split; [|rewrite <- (X k Hk); exact D]. intros t _. right. intros i Li. apply (proj1 (CH i Li)). now apply (SA i k Li).
  Qed.
  Theorem C65_again_plain m res hres g' hs' labels' threshold fuel : legal -> it <> IOther -> nsteps step m fit_plain_sys (done res hres) ->
    rows_ok g' -> (forall i, i < nh -> rows_ok (hs' i)) -> copy g g' -> (forall i, i < nh -> copy (hs i) (hs' i)) -> NoDup (dt_keys labels') -> d < fuel ->
    exists out heaps n, (forall m s, nsteps step m (predict_job_sys res hres g' hs' labels' threshold fuel) s -> m <= n /\ nsteps step (n - m) s (done out heaps)) /\
      forall k l c x, (k, (l, c, x)) ∈ dt_data out.2 <-> (k, l) ∈ dt_data labels' /\ exists f, (k, f) ∈ dt_data (bs_F res.2) /\ answer res.1.2.1.1 threshold (pred res.1.2.2 f) c x.
  Proof.
    intros LE Hit RUN. destruct (C65_plain LE Hit) as (res' & hres' & classes & lab & gpts & hpts & guest & hosts & T & n & A & FT & SC & PR).
    destruct (always_done _ _ _ _ _ _ (ex_intro _ n A) RUN) as [-> ->]. exact (again LE _ _ _ _ classes lab gpts hpts guest hosts T res' hres' g' hs' labels' threshold fuel FT SC PR).
  Qed.
  Theorem C65_again_paillier sk rg rh rr m res hres g' hs' labels' threshold fuel : legal -> it <> IOther -> boost_paillier_ok U sk rg rh rr (reg_lambda par) (min_impurity par) d ->
    nsteps step m (fit_paillier_sys sk rg rh rr) (done res hres) ->
    rows_ok g' -> (forall i, i < nh -> rows_ok (hs' i)) -> copy g g' -> (forall i, i < nh -> copy (hs i) (hs' i)) -> NoDup (dt_keys labels') -> d < fuel ->
    exists out heaps n, (forall m s, nsteps step m (predict_job_sys res hres g' hs' labels' threshold fuel) s -> m <= n /\ nsteps step (n - m) s (done out heaps)) /\
      forall k l c x, (k, (l, c, x)) ∈ dt_data out.2 <-> (k, l) ∈ dt_data labels' /\ exists f, (k, f) ∈ dt_data (bs_F res.2) /\ answer res.1.2.1.1 threshold (pred res.1.2.2 f) c x.
  Proof.
    intros LE Hit PK RUN. destruct (C65_paillier sk rg rh rr LE Hit PK) as (res' & hres' & classes & lab & gpts & hpts & guest & hosts & T & n & A & FT & SC & PR).
    destruct (always_done _ _ _ _ _ _ (ex_intro _ n A) RUN) as [-> ->]. exact (again LE _ _ _ _ classes lab gpts hpts guest hosts T res' hres' g' hs' labels' threshold fuel FT SC PR).
  Qed.

  (** The row objects that fit was called with can be given to predict, but what it reads from them then are bin numbers, except
      for zeros that were not stored. *)
  Theorem C65_reused m res hres : legal -> it <> IOther -> nsteps step m fit_plain_sys (done res hres) ->
    exists guest hosts gpts hpts, sees bp par g gpts guest /\ rows_ok (left_in g res.1.1) /\
      (forall k f, k ∈ U -> let v := value (left_in g res.1.1) k f in v = zq (Z.of_nat (p_bin guest k f)) \/ v = zq 0 /\ value g k f = zq 0) /\
      length hosts = nh /\ length hres = nh /\ forall i p r, hosts !! i = Some p -> hres !! i = Some r -> sees bp par (hs i) (hpts i) p /\ rows_ok (left_in (hs i) r.1) /\
        forall k f, k ∈ U -> let v := value (left_in (hs i) r.1) k f in v = zq (Z.of_nat (p_bin p k f)) \/ v = zq 0 /\ value (hs i) k f = zq 0.
  Proof.
    intros LE Hit RUN. destruct (C65_plain LE Hit) as (res' & hres' & classes & lab & gpts & hpts & guest & hosts & T & n & A & FT & _).
    destruct (always_done _ _ _ _ _ _ (ex_intro _ n A) RUN) as [-> ->]. destruct (ft_guest _ _ _ _ _ _ _ _ _ _ _ _ _ FT) as [SG OG]. destruct (ft_hosts _ _ _ _ _ _ _ _ _ _ _ _ _ FT) as (L1 & L2 & SH).
    destruct (le_guest _ _ _ _ _ _ _ _ _ _ _ _ _ _ _ _ LE) as (_ & _ & _ & RG & _).
    exists guest, hosts, gpts, hpts. split; [exact SG|]. split; [exact (left_rows g guest _ RG OG)|]. split; [intros k f Hk; exact (left_value g guest _ k f RG OG Hk)|]. split; [exact L1|]. split; [exact L2|].
    intros i p r Hp Hr. destruct (SH i p r Hp Hr) as [S1 O1]. assert (Li : i < nh) by (rewrite <- L1; eapply lookup_lt_Some; eauto). destruct (le_hosts _ _ _ _ _ _ _ _ _ _ _ _ _ _ _ _ LE i Li) as (_ & _ & _ & RH & _).
    split; [exact S1|]. split; [exact (left_rows _ p _ RH O1)|]. intros k f Hk. apply (left_value _ p _ k f RH O1). now apply (le_same _ _ _ _ _ _ _ _ _ _ _ _ _ _ _ _ LE).
  Qed.
End Pipe.
Print Assumptions C65_plain.
Print Assumptions C65_paillier.
Print Assumptions C65_again_plain.
Print Assumptions C65_again_paillier.
Print Assumptions C65_reused.

(** ** Example: two features, four rows, two classes *)
Definition pex_rows : dtable nat loc := DT [(10, 0); (11, 1); (12, 2); (13, 3)].
Definition pex_g : source nat nat := Source [7] [FDense [zq 10]; FDense [zq 20]; FDense [zq 30]; FDense [zq 40]] pex_rows.
Definition pex_h (_ : nat) : source nat nat := Source [8] [FDense [zq 5]; FDense [zq 5]; FDense [zq 5]; FDense [zq 6]] pex_rows.
Definition pex_labels : dtable nat label := DT [(10, LStr [48%N]); (11, LStr [48%N]); (12, LStr [49%N]); (13, LStr [49%N])].
Definition pex_ls : list label := [LStr [48%N]; LStr [49%N]].
Definition pex_bp : bin_params := BP 10000 10000 e3 4 [].
Definition pex_par : sparams := SParams (Q2Qc (1 # 10)) (Q2Qc (1 # 1000)) 2 1.
Example C65_ex : legal (fun x => x) bex_pred 1 pex_g pex_h ex_name (bex_par 2 false) pex_bp pex_par 3 4 2 pex_labels pex_ls (fun _ _ => bex_draw) (fun _ _ _ => bex_draw).
Proof.
  assert (DR : draws (fun _ => bex_draw)) by (exact (proj1 C49_ex)).
  assert (TO : forall a b c e, table_ok 1 [FDense [a]; FDense [b]; FDense [c]; FDense [e]] pex_rows).
  { intros a b c e. split; [discriminate|]. split; [ndk|]. split; [ndk|]. intros l Hl. cbn in Hl. repeat rewrite elem_of_cons in Hl. destruct Hl as [->|[->|[->|[->|Hl]]]]; [eexists; split; reflexivity..|now apply elem_of_nil in Hl]. }
  assert (PO : params_ok pex_bp 4). { split; [exact (proj1 (proj1 (proj2 C29_prepare_ex)))|]. split; [reflexivity|]. split; cbn; lia. }
  split.
  - lia.
  - split; [ndk|]. split; [cbn; lia|]. split; [cbn; lia|]. split; [apply TO|exact PO].
  - intros i _. split; [ndk|]. split; [cbn; lia|]. split; [cbn; lia|]. split; [apply TO|exact PO].
  - intros i k _. reflexivity.
  - cbn. lia.
  - intros i _. discriminate.
  - intros i j Hi Hj _. lia.
  - split; [reflexivity|]. split; [lia|]. split; [lia|]. split; [reflexivity|cbn; lia].
  - split; vm_compute; [reflexivity|discriminate].
  - split; [intros _; exact DR|intros _ _ _; exact DR].
  - split; [ndk|]. intros k. reflexivity.
  - unfold pex_ls. split; [split; [ndk|]; intros x; cbn; repeat rewrite elem_of_cons; rewrite elem_of_nil; tauto|]. split; [|cbn; lia]. right. intros l. repeat rewrite elem_of_cons. rewrite elem_of_nil. intros [->|[->|[]]]; cbn; tauto.
  - intros kd f. unfold bex_pred. split; [now rewrite map_length|]. intros x Hx. apply elem_of_list_In, in_map_iff in Hx as (z & <- & _). cbv zeta.
    destruct (qltb _ 0) eqn:E1; [split; vm_compute; discriminate|]. destruct (qltb 1 _) eqn:E2; [split; vm_compute; discriminate|]. apply qltb_false in E1, E2. auto.
  - split; auto.
Qed.
Definition pex_fit := fit_plain_sys (fun x => x) bex_pred bex_loss 1 pex_g pex_h ex_name IGain (bex_par 2 false) pex_bp pex_par 3 4 pex_labels (fun _ _ => bex_draw) (fun _ _ _ => bex_draw).
(** The results at the end of a schedule. *)
Definition pex_fend := (run 3000 pex_fit).2.
Definition pex_res := match s_guest pex_fend with Ret r => r | _ => ([], ([], 0, Softmax), BState (DT []) [] [] [] None) end.
Definition pex_hres := map (fun h => match h.1.1 with Ret r => r | _ => ([], (0, [])) end) (s_hosts pex_fend).
Definition pex_pred (g' : source nat nat) (hs' : nat -> source nat nat) := predict_job_sys (fun x => x) bex_pred 1 ex_name (bex_par 2 false) pex_res pex_hres g' hs' pex_labels (Q2Qc (1 # 2)) 3.
Definition pex_pend (s : sys (msg nat Qc Qc) (heap * dtable nat (label * label * Qc)) heap) := match s_guest (run 1000 s).2 with Ret r => r | _ => ([], DT []) end.
Definition pex_hend (s : sys (msg nat Qc Qc) (heap * dtable nat (label * label * Qc)) heap) := map (fun h => match h.1.1 with Ret r => r | _ => [] end) (s_hosts (run 1000 s).2).
Definition pex_left (i : nat) : source nat nat := left_in (pex_h i) (match pex_hres !! i with Some r => r.1 | None => [] end).

(** Training, then predicting new copies of the rows and the same row objects. *)
Lemma pex_runs : nsteps step (run 3000 pex_fit).1 pex_fit (done pex_res pex_hres) /\
  nsteps step (run 1000 (pex_pred pex_g pex_h)).1 (pex_pred pex_g pex_h) (done (pex_pend (pex_pred pex_g pex_h)) (pex_hend (pex_pred pex_g pex_h))) /\
  nsteps step (run 1000 (pex_pred (left_in pex_g pex_res.1.1) pex_left)).1 (pex_pred (left_in pex_g pex_res.1.1) pex_left)
    (done (pex_pend (pex_pred (left_in pex_g pex_res.1.1) pex_left)) (pex_hend (pex_pred (left_in pex_g pex_res.1.1) pex_left))).
Proof.
  split; [|split].
  - pose proof (run_ok 3000 pex_fit) as R. assert (E : (run 3000 pex_fit).2 = done pex_res pex_hres) by (vm_compute; reflexivity). rewrite E in R. exact R.
  - pose proof (run_ok 1000 (pex_pred pex_g pex_h)) as R. assert (E : (run 1000 (pex_pred pex_g pex_h)).2 = done (pex_pend (pex_pred pex_g pex_h)) (pex_hend (pex_pred pex_g pex_h))) by (vm_compute; reflexivity).
    rewrite E in R. exact R.
  - pose proof (run_ok 1000 (pex_pred (left_in pex_g pex_res.1.1) pex_left)) as R.
    assert (E : (run 1000 (pex_pred (left_in pex_g pex_res.1.1) pex_left)).2 = done (pex_pend (pex_pred (left_in pex_g pex_res.1.1) pex_left)) (pex_hend (pex_pred (left_in pex_g pex_res.1.1) pex_left))) by (vm_compute; reflexivity).
    rewrite E in R. exact R.
Qed.
Example pex_answers : map (fun kv => (kv.1, kv.2.1)) (dt_data (pex_pend (pex_pred pex_g pex_h)).2) =
    [(10, (LStr [48%N], LStr [48%N])); (11, (LStr [48%N], LStr [48%N])); (12, (LStr [49%N], LStr [49%N])); (13, (LStr [49%N], LStr [49%N]))] /\
  map (fun kv => (kv.1, kv.2.1)) (dt_data (pex_pend (pex_pred (left_in pex_g pex_res.1.1) pex_left)).2) =
    [(10, (LStr [48%N], LStr [48%N])); (11, (LStr [48%N], LStr [48%N])); (12, (LStr [49%N], LStr [48%N])); (13, (LStr [49%N], LStr [48%N]))].
Proof. split; vm_compute; reflexivity. Qed.
(** Predicting the training rows right after fit, from the same objects, gives other classes than predicting a copy of them. *)
Theorem C65_reused_refuted : exists (g : source nat nat) hs sname it P bp par depth stp d labels ls draw m res hres n out heaps n' out' heaps',
  legal (fun x => x) bex_pred 1 g hs sname P bp par depth stp d labels ls draw (fun _ => draw) /\ it <> IOther /\
  nsteps step m (fit_plain_sys (fun x => x) bex_pred bex_loss 1 g hs sname it P bp par depth stp labels draw (fun _ => draw)) (done res hres) /\
  nsteps step n (predict_job_sys (fun x => x) bex_pred 1 sname P res hres g hs labels (Q2Qc (1 # 2)) (S d)) (done out heaps) /\
  nsteps step n' (predict_job_sys (fun x => x) bex_pred 1 sname P res hres (left_in g res.1.1) (fun i => left_in (hs i) (match hres !! i with Some r => r.1 | None => [] end)) labels (Q2Qc (1 # 2)) (S d)) (done out' heaps') /\
  exists (k : nat) l c x x', (k, (l, l, x)) ∈ dt_data out.2 /\ (k, (l, c, x')) ∈ dt_data out'.2 /\ c <> l.
Proof.
  destruct pex_runs as (R1 & R2 & R3). destruct pex_answers as [A1 A2].
  exists pex_g, pex_h, ex_name, IGain, (bex_par 2 false), pex_bp, pex_par, 3, 4, 2, pex_labels, pex_ls, (fun _ _ => bex_draw). do 9 eexists.
  split; [exact C65_ex|]. split; [discriminate|]. split; [exact R1|]. split; [exact R2|]. split; [exact R3|].
  assert (X : (12, (LStr [49%N], LStr [49%N])) ∈ map (fun kv : nat * (label * label * Qc) => (kv.1, kv.2.1)) (dt_data (pex_pend (pex_pred pex_g pex_h)).2)) by (rewrite A1; right; right; left).
  assert (Y : (12, (LStr [49%N], LStr [48%N])) ∈ map (fun kv : nat * (label * label * Qc) => (kv.1, kv.2.1)) (dt_data (pex_pend (pex_pred (left_in pex_g pex_res.1.1) pex_left)).2)) by (rewrite A2; right; right; left).
  apply elem_of_list_fmap in X as ([k [[l1 c1] x]] & EX & X). apply elem_of_list_fmap in Y as ([k' [[l2 c2] x']] & EY & Y). cbn in EX, EY. injection EX as <- <- <-. injection EY as <- <- <-.
  exists 12, (LStr [49%N]), (LStr [48%N]), x, x'. split; [exact X|]. split; [exact Y|]. discriminate.
Qed.
Print Assumptions C65_reused_refuted.
(** The hypotheses of the Paillier theorems, with an existing key. *)
Example C65_paillier_ex : exists sk, boost_paillier_ok (dt_keys (so_rows pex_g)) sk (fun _ _ => 1%Z) (fun _ _ => 1%Z) (fun _ _ _ => 1%Z) (reg_lambda pex_par) (min_impurity pex_par) 2.
Proof.
  destruct bex_paillier as (sk & [A B C D E F G H]). exists sk. split; [exact A|exact B|exact C|exact D|exact E|exact F|exact G|]. vm_compute. discriminate.
Qed.
