(** The program without a federation, from row objects to predictions. *)
From Verif Require Export XgbSpec PipeMain LocalMain.
From Verif Require Import P_Pipe P_Local P_Tree P_Boost.
From Verif Require Import PipeSpec.
Local Open Scope nat_scope.

Section Score.
  Context {K : Type} `{EqDecision K} (rnd : Qc -> Qc) (lr : Qc) (dim : nat) (D0 : 0 < dim).
  Context (raw : dtable K (dict nat Qc)) (Wg : dt_wf raw) (n : nat) (trees : list tree_pb) (pt : nat -> ptree) (LT : length trees = n * dim).
  Context (ST : forall j, j < n * dim -> exists g hm, trees !! j = Some g /\ prepr 0 noname (load_tree g).1 (load_tree g).2 hm 0 (pt j)).
  Local Notation wt := (fun j k => pwalk (jrow raw (fun _ => raw) k) (pt j)).

  (** Scoring any rows with stored trees. *)
  Lemma local_score_any : exists F, local_score rnd lr dim trees raw = Ok F /\ dt_wf F /\ forall k v, tget F k = Some v <-> k ∈ dt_keys raw /\ v = scores rnd lr dim wt n k.
  Proof.
    set (F_at := fun r c (F : dtable K (list Qc)) => dt_wf F /\ forall k v, tget F k = Some v <-> k ∈ dt_keys raw /\ v = mids rnd lr dim wt r c k).
    set (step := fun r F tidx => p ← list_index trees (r * dim + tidx); let t := load_tree p in w ← local_predict t.1 t.2 raw; update_f rnd lr tidx F w).
    assert (TREE : forall r c F, r < n -> c < dim -> F_at r c F -> exists F', step r F c = Ok F' /\ F_at r (Datatypes.S c) F').
    { intros r c F Hr Hc [WF0 GF0]. assert (Hj : r * dim + c < n * dim) by nia. destruct (ST _ Hj) as (g & hm & Eg & PR).
      assert (EI : list_index trees (r * dim + c) = Ok g) by exact (list_index_ok _ _ _ Eg).
      destruct (local_predict_ok (load_tree g).1 (load_tree g).2 hm raw (fun _ => raw) Wg _ PR) as (w & Ew & Ww & Gw).
      assert (ES : step r F c = update_f rnd lr c F w).
      { unfold step. destruct (list_index trees (r * dim + c)) as [p|]; [|discriminate EI]. injection EI as ->. cbn [mbind res_bind]. cbv zeta. now rewrite Ew. }
      rewrite ES. unfold update_f.
      destruct (dt_join_rel (fun f x => old ← list_index f c; Ok (<[c := rnd (old + rnd (lr * x))%Qc]> f))
        (fun k _ _ v => v = mids rnd lr dim wt r (Datatypes.S c) k) F w Ww) as (F' & EF & WF' & KF' & GF').
      { intros k f x Hf Hx. apply GF0 in Hf as [Hk ->]. apply Gw in Hx as [_ ->].
        assert (X : mids rnd lr dim wt r c k !! c = Some (BoostSpec.score rnd lr dim wt r c k)) by (rewrite mids_lookup, Nat.ltb_irrefl by exact Hc; reflexivity).
        rewrite (list_index_ok _ _ _ X). cbn [mbind res_bind]. eexists. split; [reflexivity|].
        rewrite (mids_S rnd lr dim wt wt); [|exact Hc|reflexivity]. reflexivity. }
      exists F'. split; [exact EF|]. split; [exact WF'|]. intros k v. specialize (GF' k). split.
      - intros Hv. rewrite Hv in GF'. destruct (tget F k) as [f|] eqn:Ef; [|contradiction]. apply GF0 in Ef as [Hk _]. split; [exact Hk|]. destruct (tget w k); [exact GF'|contradiction].
      - intros [Hk ->]. assert (A : tget F k = Some (mids rnd lr dim wt r c k)) by (apply GF0; auto). destruct (tget w k) as [x|] eqn:B.
        + rewrite A in GF'. destruct (tget F' k); [now subst|contradiction].
        + exfalso. assert (X : tget w k = Some (pwalk (jrow raw (fun _ => raw) k) (pt (r * dim + c)))) by (apply Gw; auto). congruence. }
    assert (ROUND : forall r F, r < n -> F_at r 0 F -> exists F', foldM (step r) F (seq 0 dim) = Ok F' /\ F_at (Datatypes.S r) 0 F').
    { intros r F Hr FA. assert (G : forall m, m <= dim -> exists F', foldM (step r) F (seq 0 m) = Ok F' /\ F_at r m F').
      { induction m as [|m IH]; intros Hm; [exists F; auto|]. destruct (IH ltac:(lia)) as (F1 & E1 & A1). destruct (TREE r m F1 Hr ltac:(lia) A1) as (F2 & E2 & A2).
        exists F2. rewrite seq_S, foldM_app, E1. cbn [mbind res_bind foldM Nat.add]. rewrite E2. auto. }
      destruct (G dim (le_n _)) as (F' & E & A & B). exists F'. split; [exact E|]. split; [exact A|]. intros k v. rewrite B, mids_dim, mids_0. reflexivity. }
    destruct (dt_mapValues_rel (fun _ => Ok (repeat (zq 0) dim)) (fun _ (_ : dict nat Qc) f => f = repeat (zq 0) dim) raw Wg) as (F0 & EF & WF0 & KF & GF0). { eauto. }
    assert (I0 : F_at 0 0 F0).
    { split; [exact WF0|]. intros k v. specialize (GF0 k).
      assert (Z0 : mids rnd lr dim wt 0 0 k = repeat (zq 0) dim).
      { transitivity (map (fun _ : nat => zq 0) (seq 0 dim)).
        - unfold mids. apply map_ext. intros c. reflexivity.
        - clear. generalize 0 as c0. induction dim as [|m IHm]; intros c0; [reflexivity|]. cbn [seq map repeat]. now rewrite IHm. }
      rewrite Z0. split.
      - intros Hv. rewrite Hv in GF0. destruct (tget raw k) eqn:Ey; [|contradiction]. split; [eapply tget_key; eauto|exact GF0].
      - intros (Hk & ->). apply tget_is_Some in Hk as [v Hv]. rewrite Hv in GF0. destruct (tget F0 k); [now subst|contradiction]. }
    assert (ALL : forall m, m <= n -> exists F', foldM (fun F i => foldM (step i) F (seq 0 dim)) F0 (seq 0 m) = Ok F' /\ F_at m 0 F').
    { induction m as [|m IH]; intros Hm; [exists F0; auto|]. destruct (IH ltac:(lia)) as (F1 & E1 & A1). destruct (ROUND m F1 ltac:(lia) A1) as (F2 & E2 & A2).
      exists F2. rewrite seq_S, foldM_app, E1. cbn [mbind res_bind foldM Nat.add]. rewrite E2. auto. }
    destruct (ALL n (le_n _)) as (F & E & WF' & GF'). exists F. split.
    - unfold local_score. rewrite EF. cbn [mbind res_bind]. rewrite LT, Nat.div_mul by lia. exact E.
    - split; [exact WF'|]. intros k v. rewrite GF', mids_0. reflexivity.
  Qed.
End Score.

Section Alone.
  Context {K N : Type} `{EqDecision K} `{EqDecision N} {C : Type}.
  Context (rnd : Qc -> Qc) (pred : loss_kind -> list Qc -> list Qc) (lossf : loss_kind -> dtable K nat -> dtable K (list Qc) -> Qc).
  Context (s : source K N) (it : imp_type) (Hit : it <> IOther).
  Context (P : bparams) (bp : bin_params) (par : sparams) (depth stp d : nat) (labels : dtable K label) (ls : list label).
  Context (draw : nat -> nat -> nat -> list nat) (enc : nat -> dtable K (Qc * Qc) -> res (dtable K (C * C))).
  Context (AL : alone_legal rnd pred s P bp par depth stp d labels ls draw enc).
  Local Notation U := (dt_keys (so_rows s)).
  Local Notation bdim := (if 2 <? length ls then length ls else 1).
  Local Notation bkind := (if length ls =? 2 then Sigmoid else Softmax).
  Local Notation cf := (cfg bp par depth stp s).
  Local Notation pts := (pts_of bp par depth stp s).
  Local Notation job := (local_job rnd pred lossf P bp par depth stp it draw enc (so_header s) (so_heap s) (so_rows s) labels).

  Context (me : party K) (PME : party_ok U cf me) (SME : sees bp par s pts me) (OME : overwritten s me (loaded bp par depth stp s).1).

  (** The hypotheses of the federated program, with one host that brings a copy of the rows. *)
  Lemma with_copy : legal rnd pred 1 s (fun _ => s) noname P bp par depth stp d labels ls draw (fun _ => draw).
  Proof. destruct AL. split; auto; try lia; try reflexivity. Qed.

  Lemma alone_loaded y lab : (forall k, k ∈ U -> lab k < length ls) -> dt_wf y -> (forall k, k ∈ dt_keys y <-> k ∈ U) -> (forall k n, (k, n) ∈ dt_data y -> n = lab k) ->
    alone_ready rnd pred U cf me P bkind bdim y lab draw enc d.
  Proof.
    intros LB WY KY GY. destruct (loaded_ready rnd pred 1 s (fun _ => s) noname P bp par depth stp d labels ls draw (fun _ => draw) with_copy y lab LB WY KY GY) as [R1 R2 R3 R4 R5 R6 R7 R8 R9 R10 R11].
    split; auto.
    - destruct R1 as (gh & vg & vh & PA). exists gh, vg, vh. destruct PA as [A1 A2 A3 A4 A5 A6 A7 A8 A9 A10 A11]. split; auto; [|apply A8]. rewrite (po_ml _ _ _ PME), <- (po_ml _ _ _ A3). apply A5.
    - destruct R2 as (A & B & _). auto.
    - apply R4.
    - intros j gs W KS V. apply (all_enc _ _ _ _ _ _ _ _ _ _ _ _ _ AL); auto.
  Qed.

  Local Notation dim := (if decide (2 < length ls) then length ls else 1).
  Local Notation kind := (if decide (length ls = 2) then Sigmoid else Softmax).
  Local Notation none := (fun _ : nat => @nil (list Qc)).
  Local Notation fitted := (fitted rnd pred lossf 0 s (fun _ => s) P bp par d labels ls draw (fun _ => draw) (fun v => v) (fun v => v) (fun x => x) Ok).
  Local Notation score_of := (score_of rnd P ls).

  Lemma joined_none (g' : source K N) gr : values_of g' gr -> forall k f, jrow gr (fun _ => gr) k None f = PipeSpec.joined g' (fun _ => g') k None f.
  Proof. intros V k f. exact (jrow_joined 0 g' (fun _ => g') gr (fun _ => gr) V ltac:(intros; lia) k None f Logic.I). Qed.
  Lemma alone_fit : exists res classes lab T, job = Ok res /\ fitted classes lab pts (fun _ => pts) me [] T res [] /\
    (forall k f, (k, f) ∈ dt_data (bs_F res.2) <-> k ∈ U /\ f = score_of pts (fun _ => pts) T (length (bs_hist res.2)) s (fun _ => s) k) /\
    forall (g' : source K N) (labels' : dtable K label) threshold, rows_ok g' -> NoDup (dt_keys labels') ->
    exists gh out, local_predict_job rnd pred P res.1.2 (bs_trees res.2) threshold (so_heap g') (so_rows g') labels' = Ok (gh, out) /\ realigned g' gh /\ NoDup (dt_keys out) /\
      forall k l c x, (k, (l, c, x)) ∈ dt_data out <->
        (k, l) ∈ dt_data labels' /\ k ∈ dt_keys (so_rows g') /\
        answer classes threshold (pred kind (score_of pts (fun _ => pts) T (length (bs_hist res.2)) g' (fun _ => g') k)) c x.
  Proof.
    destruct (labels_ok rnd pred 1 s (fun _ => s) noname P bp par depth stp d labels ls draw (fun _ => draw) with_copy) as (classes & y & lab & EC & DC & LC & OC & LB & LL & WY & KY & GY).
    pose proof (alone_loaded y lab LL WY KY GY) as AR. pose proof (all_source _ _ _ _ _ _ _ _ _ _ _ _ _ AL) as SO.
    destruct (loaded_ok bp par depth stp s SO) as (EL & _ & _ & _ & RAW & CP & CD & CS).
    destruct (local_train_ok rnd pred lossf U cf me it Hit P bkind bdim y lab draw enc d AR) as (T & st & ET & I & LO & STO).
    pose proof (bi_F _ _ _ _ _ _ _ _ _ _ _ _ _ _ _ _ _ _ _ _ I) as [WF GF].
    assert (DM : bdim = dim) by (destruct (Nat.ltb_spec 2 (length ls)), (decide (2 < length ls)); lia).
    assert (KD : bkind = kind) by (destruct (Nat.eqb_spec (length ls) 2), (decide (length ls = 2)); congruence).
    assert (GOOD : forall j t, T !! j = Some t -> alone_walks U cf me t /\ owners_in 0 t /\ tdepth t <= d).
    { intros j t Ht. rewrite (Nat.div_mod j bdim) in Ht by (pose proof (ar_dim _ _ _ _ _ _ _ _ _ _ _ _ _ AR); lia). rewrite Nat.mul_comm in Ht.
      destruct (bi_boosted _ _ _ _ _ _ _ _ _ _ _ _ _ _ _ _ _ _ _ _ I (j / bdim) (j mod bdim) t) as (vg & vh & (LE & W & TD) & _); [apply Nat.mod_upper_bound; pose proof (ar_dim _ _ _ _ _ _ _ _ _ _ _ _ _ AR); lia|exact Ht|].
      split; [exact W|]. split; [|exact TD]. eapply (tight_owners U _ [] 0); [reflexivity|]. exact (grow_tight U _ _ _ _ vg vh _ _ (fun x => x) Ok d _ _ _ _ LE). }
    pose proof (ar_dim _ _ _ _ _ _ _ _ _ _ _ _ _ AR) as D0.
    assert (LT : length T = length (bs_hist st) * bdim) by (pose proof (bi_len _ _ _ _ _ _ _ _ _ _ _ _ _ _ _ _ _ _ _ _ I); lia).
    assert (LB' : length (bs_trees st) = length T) by apply (bi_trees _ _ _ _ _ _ _ _ _ _ _ _ _ _ _ _ _ _ _ _ I).
    assert (RO : rows_ok s) by apply SO.
    exists ((loaded bp par depth stp s).1, (classes, bdim, bkind), st), classes, lab, T. cbn [fst snd]. split.
    { unfold local_job. rewrite EL. cbn [mbind res_bind]. rewrite EC. cbn [mbind res_bind fst snd]. change (local_train rnd pred lossf P (loaded bp par depth stp s).2 it bkind bdim y draw enc = Ok st) in ET. now rewrite ET. }
    assert (EQ : forall n k, n <= length (bs_hist st) -> k ∈ U -> scores rnd (b_lr P) bdim (wt me [] T) n k = score_of pts (fun _ => pts) T n s (fun _ => s) k).
    { intros n k Hn Hk. unfold P_Pipe.score_of. rewrite <- DM. apply scores_ext. intros j Hj. destruct (lookup_lt_is_Some_2 T j) as [t Ht]; [nia|]. unfold wt, tree_at. rewrite Ht. destruct (GOOD j t Ht) as (WK & OI & _).
      destruct (align_ok s RO) as (h0 & gr & _ & _ & VG & _). rewrite <- (WK gr (fun _ => gr) (RAW gr VG) k Hk).
      rewrite (cut_pt s (fun _ => s) bp par depth stp t). apply (owned_walk 0 s (fun _ => s) bp par depth stp); [exact OI|]. intros [i|] f' Ho; [lia|]. now apply joined_none. }
    split.
    { split.
      - auto.
      - exact LB.
      - cbn [fst snd]. now rewrite DM, KD.
      - auto.
      - split; [reflexivity|]. split; [reflexivity|]. intros i p r Hp. discriminate Hp.
      - rewrite <- DM, <- KD. eapply boosted_mono; [|exact (bi_boosted _ _ _ _ _ _ _ _ _ _ _ _ _ _ _ _ _ _ _ _ I)]. cbv beta. intros j vg vh t (Et & _).
        exists (gvalid cf P draw j), (fun _ => gvalid cf P draw j).
        destruct (valid_ok rnd pred U cf me P bkind bdim y lab draw enc d AR j) as [GV _].
        assert (LG : length (c_points cf) = length (so_header s)) by apply SME. rewrite LG in GV. split; [exact GV|]. split; [intros; lia|]. rewrite CP in Et. exact Et.
      - intros t Ht. apply elem_of_list_lookup in Ht as [j Hj]. apply (GOOD j t Hj).
      - cbn [snd]. rewrite <- DM. auto.
      - intros q x Hx. cbn [snd] in Hx. destruct (LO q x Hx) as (yp & -> & WP & GP). exists y, yp. rewrite <- KD.
        split; [exact WY|]. split. { intros k i. split; [intros Hi; split; [apply KY; unfold dt_keys; apply elem_of_list_fmap; exists (k, i); auto|eauto]|]. intros [Hk ->]. apply KY in Hk. unfold dt_keys in Hk. apply elem_of_list_fmap in Hk as ([k' i] & -> & Hi). cbn [fst]. rewrite <- (GY _ _ Hi). exact Hi. }
        split; [reflexivity|]. split; [exact WP|]. intros k p. rewrite <- tget_elem by exact WP. rewrite GP. apply lookup_lt_Some in Hx. split; intros [Hk ->]; (split; [exact Hk|]); f_equal; [|symmetry]; apply EQ; auto; lia. }
    split.
    { intros k f. rewrite <- tget_elem by exact WF. rewrite GF, mids_0.
      split; intros (Hk & ->); (split; [exact Hk|]); [now apply EQ|symmetry; now apply EQ]. }
    intros g' labels' threshold RG WL. destruct (align_ok g' RG) as (gh & gr & EG1 & EG2 & VG & AG).
    set (pt := fun j => match T !! j with Some t => pt_of cf (fun _ => cf) t | None => PL (zq 0) end).
    destruct (local_score_any rnd (b_lr P) bdim D0 gr (proj1 VG) (length (bs_hist st)) (bs_trees st) pt) as (F & EF & WF' & GF'); [congruence| |].
    { intros j Hj. destruct (lookup_lt_is_Some_2 T j) as [t Ht]; [lia|].
      destruct (bi_stored _ _ _ _ _ _ _ _ _ _ _ _ _ _ _ _ _ _ _ _ I j t Ht) as (gg & hh & Eg & _ & S1 & _). exists gg. eexists. split; [exact Eg|]. unfold pt. rewrite Ht. exact S1. }
    assert (SC : forall k, scores rnd (b_lr P) bdim (fun j k => pwalk (jrow gr (fun _ => gr) k) (pt j)) (length (bs_hist st)) k = score_of pts (fun _ => pts) T (length (bs_hist st)) g' (fun _ => g') k).
    { intros k. unfold P_Pipe.score_of. rewrite <- DM. apply scores_ext. intros j Hj. destruct (lookup_lt_is_Some_2 T j) as [t Ht]; [lia|]. unfold pt, tree_at.
      rewrite Ht, (cut_pt s (fun _ => s) bp par depth stp t). destruct (GOOD j t Ht) as (_ & OI & _).
      apply (owned_walk 0 s (fun _ => s) bp par depth stp); [exact OI|]. intros [i|] f' Ho; [lia|]. now apply joined_none. }
    assert (GS : forall k v, (k, v) ∈ dt_data F <-> k ∈ dt_keys (so_rows g') /\ v = score_of pts (fun _ => pts) T (length (bs_hist st)) g' (fun _ => g') k).
    { intros k v. rewrite <- tget_elem by exact WF'. rewrite GF', SC, (proj1 (proj2 VG)). reflexivity. }
    assert (CN : classes <> []).
    { intros ->. cbn in LC. destruct (ar_alone _ _ _ _ _ _ _ _ _ _ _ _ _ AR) as (? & ? & ? & PA). destruct (al_rows _ _ _ _ _ _ PA) as [_ NE].
      destruct U as [|k0 U0] eqn:EU; [congruence|]. destruct (all_keys _ _ _ _ _ _ _ _ _ _ _ _ _ AL) as [_ KS]. assert (X : k0 ∈ dt_keys labels) by (apply KS; rewrite EU; left).
      destruct (all_labels _ _ _ _ _ _ _ _ _ _ _ _ _ AL) as ((_ & DL) & _). destruct ls as [|? ?]; [|discriminate LC]. unfold dt_keys in X. apply elem_of_list_fmap in X as ([k' l] & _ & X).
      assert (Y : l ∈ ([] : list label)) by (apply DL; unfold dt_values; apply elem_of_list_fmap; exists (k', l); auto). inversion Y. }
    destruct (C48_predict classes threshold (pred bkind) labels' F WL WF' CN) as (out & EO & WO & GO).
    { intros k f Hf. apply GS in Hf as [_ ->]. destruct (all_probs _ _ _ _ _ _ _ _ _ _ _ _ _ AL bkind (score_of pts (fun _ => pts) T (length (bs_hist st)) g' (fun _ => g') k)) as [-> _].
      unfold P_Pipe.score_of, scores. rewrite map_length, seq_length, LC, <- DM.
      assert (length ls <> 0) by (rewrite <- LC; destruct classes; [congruence|discriminate]). destruct (Nat.ltb_spec 2 (length ls)), (decide (length ls = 2)); lia. }
    exists gh, out. split.
    { unfold local_predict_job. rewrite EG1. cbn [mbind res_bind fst snd]. rewrite EG2. cbn [mbind res_bind fst snd]. rewrite EF. cbn [mbind res_bind fst snd]. now rewrite EO. }
    split; [exact AG|]. split; [exact WO|]. intros k l c x. rewrite GO. unfold answer. rewrite <- KD. split.
    - intros (A & f & i & Hf & Hc & X). apply GS in Hf as (F1 & ->). split; [exact A|]. split; [exact F1|]. exists i. auto.
    - intros (A & F1 & i & Hc & X). split; [exact A|]. exists (score_of pts (fun _ => pts) T (length (bs_hist st)) g' (fun _ => g') k), i. split; [apply GS; auto|]. auto.
  Qed.
End Alone.
