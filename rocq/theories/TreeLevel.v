(** One level of the tree: new nodes, and where every row goes. *)
From Verif Require Export TreeBatch.
From Verif Require Import DTableModel DTableSpec DTableProofs.
Local Open Scope nat_scope.

Section Level.
  Context {K : Type} `{EqDecision K} {C E : Type} (U : list K) (NDU : NoDup U).
  Context (nh : nat) (gcfg : pcfg K) (hcfg : nat -> pcfg K) (guest : party K) (hosts : list (party K)) (sname : nat -> site).
  Context (gh : dtable K (Qc * Qc)) (ghc : dtable K (C * C)) (vg vh eg eh : K -> Qc).
  Context (O : numops C) (rep : C -> Z -> Qc -> Prop) (NL : numlaws O rep).
  Context (dec : C -> res Qc) (gdec : E -> res Qc) (genc : nat -> nat -> Qc -> res E) (rnd : Qc -> Qc) (rt : Qc -> res Qc).
  Local Notation lam := (reg_lambda (c_par gcfg)).
  Local Notation mi := (min_impurity (c_par gcfg)).
  Local Notation info := (@info K).
  Local Notation goes := (goes guest hosts).
  Local Notation grow := (grow U lam mi guest hosts vg vh eg eh rnd rt).
  Local Notation split_at := (split_at U gcfg guest hosts vg vh eg eh rnd rt).
  Local Notation to_si := (to_si gcfg sname).
  Local Notation qnode := (qnode gcfg).
  Local Notation route := (route guest hosts).
  Context (TR : train_ok U nh gcfg hcfg guest hosts sname gh ghc vg vh eg eh rep dec gdec genc rnd rt).

  Lemma propose_cand own p S G H sg sh c x : propose U lam mi own p S G H sg sh = Ok (Some (c, x)) -> ch_own c = own /\ (ch_fid c, ch_bin c) ∈ cands U p S.
  Proof.
    unfold propose. cbv zeta. destruct (mapR _ _) as [l|e] eqn:El; [|discriminate]. cbn [mbind res_bind]. intros [= Ef].
    destruct (mapR_tag _ _ _ _ El) as (xs & _ & ->). apply first_best_elem, elem_of_list_In, in_combine_l in Ef.
    apply in_map_iff in Ef as ([f b] & <- & Hf). split; [reflexivity|]. now apply elem_of_list_In.
  Qed.

  (** The winning split is a candidate of its owner. *)
  Lemma split_choice x c g : split_at x = Ok (Some (c, g)) -> exists p, match ch_own c with None => p = guest | Some i => hosts !! i = Some p end /\
    (ch_fid c, ch_bin c) ∈ cands U p (i_S x).
  Proof.
    unfold TreeBatch.split_at, TreeSpec.best_split. intros Hox.
    destruct (TreeSpec.guest_best _ _ _ _ _ _ _) as [g0|e] eqn:Eg; [|discriminate]. cbn [mbind res_bind] in Hox.
    destruct (mapR _ _) as [hs|e] eqn:Ehs in Hox; [|discriminate]. cbn [mbind res_bind] in Hox. cbv zeta in Hox. injection Hox as Hox.
    destruct (mapR_inv _ _ _ Ehs) as [Lh Dh]. destruct (first_best _ (omap id hs)) as [[c' y']|] eqn:Ef.
    - injection Hox as -> ->. apply first_best_elem, elem_of_list_omap in Ef as (o' & Ho' & Eo). cbn in Eo. subst o'.
      apply elem_of_list_lookup in Ho' as (i' & Hi'). destruct (lookup_lt_is_Some_2 hosts i') as [p' Hp'].
      { apply lookup_lt_Some in Hi'. rewrite combine_length, seq_length, Nat.min_id in Lh. lia. }
      destruct (Dh i' (i', p')) as (o' & Ho' & Eo'); [exact (combine_seq_at hosts 0 i' p' Hp')|]. rewrite Hi' in Ho'. injection Ho' as <-.
      unfold TreeSpec.host_best in Eo'. destruct (propose _ _ _ _ _ _ _ _ _ _) as [[[c' x']|]|e] eqn:Epr in Eo'; cbn [mbind res_bind fst snd] in Eo'; [| |discriminate].
      + destruct (rt x'); [|discriminate]. cbn in Eo'. injection Eo' as -> _. destruct (propose_cand _ _ _ _ _ _ _ _ _ Epr) as [Po Pc]. cbn [fst snd] in Po, Pc.
        rewrite Po. eauto.
      + destruct (rt _) in Eo'; discriminate.
    - subst g0. unfold TreeSpec.guest_best in Eg. destruct (propose_cand _ _ _ _ _ _ _ _ _ Eg) as [Po Pc]. rewrite Po. eauto.
  Qed.

  (** A node of the queue, the tree that will hang there, and the number of nodes made before its children. *)
  Local Notation item := (info * dtree * nat)%type.
  Fixpoint number (num : nat) (l : list (info * dtree)) : list item :=
    match l with
    | [] => []
    | (x, t) :: l => (x, t, num) :: number (match t with TSplit _ _ _ _ _ _ _ => num + 2 | TLeaf _ _ _ => num end) l
    end.
  Definition mknode (e : item) : node :=
    match e.1.2 with
    | TLeaf w G H => Node (i_id e.1.1) GuestSite None w true G H None None
    | TSplit w G H c _ _ _ => Node (i_id e.1.1) (own_site sname (ch_own c)) (Some (ch_fid c)) w false G H (Some (e.2 + 1)) (Some (e.2 + 2))
    end.
  Definition mkkids (e : item) : list (info * dtree) :=
    match e.1.2 with
    | TLeaf _ _ _ => []
    | TSplit _ G H c _ l r => [(Info (e.2 + 1) (goes left_of (i_S e.1.1) c) (ch_g c) (ch_h c), l);
                               (Info (e.2 + 2) (goes right_of (i_S e.1.1) c) (G - ch_g c)%Qc (H - ch_h c)%Qc, r)]
    end.
  Definition kids (l : list item) : list (info * dtree) := flat_map mkkids l.
  Definition gmask (m : dict nat mval) (e : item) : dict nat mval :=
    match e.1.2 with
    | TSplit _ _ _ (Choice None _ b _ _) _ _ _ => dict_set (i_id e.1.1) (MBin b) m
    | _ => m
    end.
  Definition inc_of (it : imp_type) (x : Qc) : Qc := match it with ISplit => zq 1 | _ => x end.
  Definition incs (it : imp_type) (e : item) : list (site * option nat * Qc) :=
    match e.1.2 with
    | TLeaf _ _ _ => []
    | TSplit _ _ _ c x _ _ => [((own_site sname (ch_own c), Some (ch_fid c)), inc_of it x)]
    end.
  Definition add_imp (imp : dict (site * option nat) Qc) (kx : site * option nat * Qc) : dict (site * option nat) Qc :=
    dict_set kx.1 (match dict_get kx.1 imp with Some x => x | None => zq 0 end + kx.2)%Qc imp.

  Definition grown (d : nat) (xt : info * dtree) : Prop := grow d (i_S xt.1) (i_G xt.1) (i_H xt.1) = Ok xt.2.

  Lemma grown_inv d x t : grown d (x, t) -> exists w o, sweight lam (i_G x) (i_H x) = Ok w /\ split_at x = Ok o /\
    match t with
    | TLeaf w' G H => w' = w /\ G = i_G x /\ H = i_H x /\ (d = 0 \/ match o with Some (_, g) => qleb g (mi + FLOAT_ZERO)%Qc = true | None => True end)
    | TSplit w' G H c g l r => w' = w /\ G = i_G x /\ H = i_H x /\ o = Some (c, g) /\ qleb g (mi + FLOAT_ZERO)%Qc = false /\
        exists d', d = Datatypes.S d' /\ grow d' (goes left_of (i_S x) c) (ch_g c) (ch_h c) = Ok l /\
          grow d' (goes right_of (i_S x) c) (G - ch_g c)%Qc (H - ch_h c)%Qc = Ok r
    end.
  Proof.
    unfold grown, split_at. cbn [fst snd]. intros Hg.
    assert (X : (w ← sweight lam (i_G x) (i_H x); o ← best_split U lam mi guest hosts vg vh eg eh rnd rt (i_S x) (i_G x) (i_H x);
      match d, o with
      | Datatypes.S d', Some (c, g) => if qleb g (mi + FLOAT_ZERO)%Qc then Ok (TLeaf w (i_G x) (i_H x)) else
          l ← grow d' (goes left_of (i_S x) c) (ch_g c) (ch_h c); r ← grow d' (goes right_of (i_S x) c) (i_G x - ch_g c)%Qc (i_H x - ch_h c)%Qc;
          Ok (TSplit w (i_G x) (i_H x) c g l r)
      | _, _ => Ok (TLeaf w (i_G x) (i_H x))
      end) = Ok t) by (destruct d; exact Hg). clear Hg.
    destruct (sweight _ _ _) as [w|e]; [|discriminate]. cbn [mbind res_bind] in X.
    destruct (TreeSpec.best_split _ _ _ _ _ _ _ _ _ _ _ _ _ _) as [o|e]; [|discriminate]. cbn [mbind res_bind] in X.
    exists w, o. split; [reflexivity|]. split; [reflexivity|]. destruct d as [|d']; [injection X as <-; auto 10|].
    destruct o as [[c g]|]; [|injection X as <-; auto 10].
    destruct (qleb g _) eqn:Eq; [injection X as <-; auto 10|].
    destruct (grow d' (goes left_of _ _) _ _) as [l|e] eqn:El; [|discriminate]. cbn [mbind res_bind] in X.
    destruct (grow d' (goes right_of _ _) _ _) as [r|e] eqn:Er; [|discriminate]. cbn [mbind res_bind] in X. injection X as <-. eauto 15.
  Qed.

  Lemma grow_weight d S G H t : grow d S G H = Ok t -> exists w, sweight lam G H = Ok w.
  Proof. destruct d; cbn; destruct (sweight lam G H) as [w|]; try discriminate; eauto. Qed.

  Lemma update_queue_ok it d l : it <> IOther -> Forall (grown d) l ->
    forall queue os pre T mk num w imp qacc, Forall2 qnode queue (map fst l) -> Forall2 (fun x o => split_at x = Ok o) (map fst l) os ->
    exists qnew, foldM (update_node (c_par gcfg) it (match d with 0 => true | _ => false end) (pre ++ map to_si os)) (GState T mk num w imp, qacc)
        (combine (seq (length pre) (length queue)) queue)
      = Ok (@GState K (T ++ map mknode (number num l)) (fold_left gmask (number num l) mk) (num + length (kids (number num l))) w
              (fold_left add_imp (flat_map (incs it) (number num l)) imp), qacc ++ qnew) /\
      Forall2 qnode qnew (map fst (kids (number num l))).
  Proof.
    intros Hit Hl. induction Hl as [|[x t] l Hx Hl IH]; intros queue os pre T mk num w imp qacc Hq Ho.
    - inversion Hq; subst. exists []. cbn. rewrite !app_nil_r, Nat.add_0_r. split; [reflexivity|constructor].
    - inversion Hq as [|nd x' queue' xs' (wx & Ewx & Hnd) Hq']; subst. inversion Ho as [|x' o xs' os' Hox Ho']; subst.
      cbn [length seq combine foldM].
      destruct (grown_inv d x t Hx) as (wx' & o' & Ew & Eo & Ht). cbn [fst] in *. assert (wx' = wx) as -> by congruence. assert (o' = o) as -> by congruence. clear Ew Eo.
      assert (IDX : list_index (pre ++ map to_si (o :: os')) (length pre) = Ok (to_si o)).
      { unfold list_index. rewrite lookup_app_r, Nat.sub_diag by lia. reflexivity. }
      assert (STEP : exists T1 mk1 num1 imp1 qn, update_node (c_par gcfg) it (match d with 0 => true | _ => false end) (pre ++ map to_si (o :: os'))
          (GState T mk num w imp, qacc) (length pre, Node (i_id x) GuestSite None wx false (i_G x) (i_H x) None None)
        = Ok (@GState K (T ++ [mknode (x, t, num)]) mk1 num1 w imp1, qacc ++ qn) /\ T1 = T ++ [mknode (x, t, num)] /\
          mk1 = gmask mk (x, t, num) /\ num1 = num + length (mkkids (x, t, num)) /\ imp1 = fold_left add_imp (incs it (x, t, num)) imp /\
          Forall2 qnode qn (map fst (mkkids (x, t, num)))).
      { revert IDX. generalize (pre ++ map to_si (o :: os')). intros sp IDX. unfold update_node. cbn [fst snd n_id n_site n_fid n_weight n_leaf n_grad n_hess n_left n_right t_nodes t_mask t_num t_weights t_imp].
        destruct t as [w' G H|w' G H c g l0 r0].
        - destruct Ht as (-> & -> & -> & Hd). do 4 eexists. exists []. rewrite app_nil_r. unfold mknode, gmask, mkkids, incs. cbn [fst snd map length fold_left].
          split; [|split; [reflexivity|]; split; [reflexivity|]; split; [reflexivity|]; split; [reflexivity|constructor]].
          destruct d as [|d']; [rewrite Nat.add_0_r; reflexivity|]. destruct Hd as [Hd|Hd]; [discriminate|].
          rewrite IDX. cbn [mbind res_bind]. destruct o as [[c g]|]; cbn [to_si TreeBatch.to_si si_gain the_val mbind res_bind].
          + rewrite Hd, Nat.add_0_r. reflexivity.
          + pose proof FLOAT_ZERO_pos as FP. rewrite zq_0 in FP. replace (qleb (mi - FLOAT_ZERO) (mi + FLOAT_ZERO)) with true; [rewrite Nat.add_0_r; reflexivity|].
            symmetry. apply qleb_true. qlra.
        - destruct Ht as (-> & -> & -> & -> & Hq0 & d' & -> & Hl0 & Hr0). rewrite IDX. cbn [mbind res_bind to_si TreeBatch.to_si si_gain the_val]. rewrite Hq0.
          cbn [si_grad si_hess the_val mbind res_bind].
          destruct (grow_weight _ _ _ _ _ Hl0) as (wl & Ewl). destruct (grow_weight _ _ _ _ _ Hr0) as (wr & Ewr).
          rewrite <- sweight_model in Ewl, Ewr. rewrite Ewl. cbn [mbind res_bind]. rewrite Ewr. cbn [mbind res_bind si_site si_bid si_fid].
          unfold mknode, gmask, mkkids, incs. cbn [fst snd map length fold_left].
          assert (IMP : forall s, si_site s = own_site sname (ch_own c) -> si_fid s = Some (ch_fid c) -> si_gain s = Some g ->
            update_importance it s imp = Ok (add_imp imp ((own_site sname (ch_own c), Some (ch_fid c)), inc_of it g))).
          { intros s E1 E2 E3. unfold update_importance, add_imp. rewrite E1, E2, E3. cbn [fst snd]. destruct it; [reflexivity|reflexivity|contradiction]. }
          do 4 eexists. exists [Node (num + 1) GuestSite None wl false (ch_g c) (ch_h c) None None;
            Node (num + 2) GuestSite None wr false (i_G x - ch_g c)%Qc (i_H x - ch_h c)%Qc None None].
          assert (FQ : Forall2 qnode [Node (num + 1) GuestSite None wl false (ch_g c) (ch_h c) None None;
            Node (num + 2) GuestSite None wr false (i_G x - ch_g c)%Qc (i_H x - ch_h c)%Qc None None]
            [Info (num + 1) (goes left_of (i_S x) c) (ch_g c) (ch_h c);
             Info (num + 2) (goes right_of (i_S x) c) (i_G x - ch_g c)%Qc (i_H x - ch_h c)%Qc]).
          { repeat constructor; eexists; cbn [i_id i_G i_H]; eauto. }
          split; [|split; [reflexivity|]; split; [reflexivity|]; split; [reflexivity|]; split; [reflexivity|exact FQ]].
          destruct c as [[i|] f b gl hl]; cbn [ch_own own_site ch_fid ch_g ch_h ch_bin the_val mbind res_bind] in *.
          + assert (exists r, sname i = HostSite r) as [r Er].
            { destruct (sname i) as [|r] eqn:Es; [exfalso|eauto]. destruct (split_choice _ _ _ Hox) as (p & Hp & _). apply (tr_names TR i); [|exact Es].
              rewrite <- (tr_hosts TR). eapply lookup_lt_Some. exact Hp. }
            match goal with |- context [update_importance it ?s imp] => rewrite (IMP s eq_refl eq_refl eq_refl) end. rewrite Er. cbn [mbind res_bind]. reflexivity.
          + match goal with |- context [update_importance it ?s imp] => rewrite (IMP s eq_refl eq_refl eq_refl) end. cbn [mbind res_bind]. reflexivity. }
      destruct STEP as (T1 & mk1 & num1 & imp1 & qn & -> & _ & -> & -> & -> & Hqn). cbn [mbind res_bind].
      replace (pre ++ map to_si (o :: os')) with ((pre ++ [to_si o]) ++ map to_si os') by (now rewrite <- app_assoc).
      replace (Datatypes.S (length pre)) with (length (pre ++ [to_si o])) by (rewrite app_length; cbn; lia).
      assert (NX : (match t with TSplit _ _ _ _ _ _ _ => num + 2 | TLeaf _ _ _ => num end) = num + length (mkkids (x, t, num))) by (destruct t; cbn; lia).
      destruct (IH queue' os' (pre ++ [to_si o]) (T ++ [mknode (x, t, num)]) (gmask mk (x, t, num)) (num + length (mkkids (x, t, num))) w
        (fold_left add_imp (incs it (x, t, num)) imp) (qacc ++ qn) Hq' Ho') as (qnew & Ef & Fq).
      exists (qn ++ qnew). cbn [number]. rewrite NX. unfold kids in *. cbn [map fold_left flat_map]. rewrite map_app. split.
      + rewrite Ef. rewrite (app_length (mkkids _)), fold_left_app. rewrite <- !app_assoc. cbn [app]. rewrite Nat.add_assoc. reflexivity.
      + now apply Forall2_app.
  Qed.

  (** ** Numbering *)
  Lemma number_fst l : forall num, map fst (number num l) = l.
  Proof. induction l as [|[x t] l IH]; intros num; cbn; [reflexivity|]. now rewrite IH. Qed.
  Lemma number_length num l : length (number num l) = length l.
  Proof. rewrite <- (number_fst l num) at 2. now rewrite map_length. Qed.
  Definition iid (xt : info * dtree) : nat := i_id xt.1.
  Lemma kids_ids l : forall num, map iid (kids (number num l)) = seq (num + 1) (length (kids (number num l))).
  Proof.
    induction l as [|[x t] l IH]; intros num; [reflexivity|]. cbn [number]. unfold kids in *. cbn [flat_map].
    rewrite map_app, app_length, seq_app. rewrite IH. destruct t as [w G H|w G H c g l0 r0]; unfold mkkids; cbn [fst snd map length Nat.add seq app iid i_id];
      [now rewrite Nat.add_0_r|]. replace (S (num + 1)) with (num + 2) by lia. replace (num + 2 + 1) with (num + 1 + 2) by lia. reflexivity.
  Qed.
  Lemma number_bound l : forall num e, e ∈ number num l -> num <= e.2 /\ (match e.1.2 with TSplit _ _ _ _ _ _ _ => e.2 + 2 <= num + length (kids (number num l)) | TLeaf _ _ _ => True end).
  Proof.
    induction l as [|[x t] l IH]; intros num e; cbn [number]; [intros He; inversion He|]. unfold kids in *. cbn [flat_map]. rewrite app_length.
    intros He. apply elem_of_cons in He as [->|He].
    - destruct t; unfold mkkids; cbn; split; [lia|exact Logic.I|lia|lia].
    - apply IH in He as [H1 H2]. revert H2. destruct t; unfold mkkids; cbn [fst snd length app] in *; (destruct (e.1.2); intros H2; split; [lia|exact Logic.I|lia|lia]).
  Qed.
  Lemma kids_elem (l : list item) xt : xt ∈ kids l <-> exists e, e ∈ l /\ xt ∈ mkkids e.
  Proof. unfold kids. rewrite elem_of_list_In, in_flat_map. split; intros (e & H1 & H2); exists e; (split; apply elem_of_list_In; assumption). Qed.

  (** ** The guest's mask *)
  Lemma gmask_get (l : list item) : forall m, NoDup (map (fun e => iid e.1) l) -> (NoDup m.*1 -> NoDup (fold_left gmask l m).*1) /\
    (forall id, id ∉ map (fun e => iid e.1) l -> dict_get id (fold_left gmask l m) = dict_get id m) /\
    (forall e w G H c g t1 t2, e ∈ l -> e.1.2 = TSplit w G H c g t1 t2 -> ch_own c = None -> dict_get (iid e.1) (fold_left gmask l m) = Some (MBin (ch_bin c))).
  Proof.
    induction l as [|a l IH]; intros m ND; cbn [fold_left map] in *.
    - split; [auto|]. split; [auto|]. intros e ? ? ? ? ? ? ? He. inversion He.
    - apply NoDup_cons in ND as [Na ND]. destruct (IH (gmask m a) ND) as (A & B & D). split; [|split].
      + intros Nm. apply A. unfold gmask. destruct (a.1.2) as [|? ? ? [[i|] f b gl hl] ? ? ?]; try exact Nm. now apply dict_set_NoDup.
      + intros id Hid. rewrite B by (intros X; apply Hid; now right). unfold gmask. destruct (a.1.2) as [|? ? ? [[i|] f b gl hl] ? ? ?]; try reflexivity.
        apply dict_get_set_ne. intros ->. apply Hid. left.
      + intros e w G H c g t1 t2 He Et Eo. apply elem_of_cons in He as [->|He]; [|eauto].
        rewrite B by exact Na. unfold gmask. rewrite Et. destruct c as [o f b gl hl]. cbn in Eo. subst o. apply dict_get_set_eq.
  Qed.

  (** ** Sides *)
  Definition cfg_of (o : option nat) : pcfg K := match o with None => gcfg | Some i => hcfg i end.
  Definition side (c : choice) (k : K) : bool := goes left_of (fun _ => true) c k.
  Definition good (c : choice) : Prop := exists p pts, owner guest hosts (ch_own c) = Some p /\ party_ok U (cfg_of (ch_own c)) p /\
    c_points (cfg_of (ch_own c)) !! ch_fid c = Some pts /\ ch_bin c < length pts /\ match ch_own c with None => True | Some i => i < nh end.

  Lemma cands_good p cfg S f b : party_ok U cfg p -> (1 <= p_min_leaf p)%Z -> (f, b) ∈ cands U p S ->
    exists pts, c_points cfg !! f = Some pts /\ b < length pts.
  Proof.
    intros PK ML Hc. unfold cands in Hc. destruct (_ <? _)%Z in Hc; [inversion Hc|].
    apply elem_of_list_In, in_flat_map in Hc as ([f' nb] & H1 & H2). cbn [fst snd] in H2. destruct (p_valid p !! f') as [[]|]; try contradiction.
    apply in_map_iff in H2 as (b' & [= -> ->] & H2). apply filter_In in H2 as [H2 H3]. apply elem_of_list_In, combine_seq_elem in H1 as [_ H1].
    rewrite Nat.sub_0_r, (po_nb _ _ _ PK), map_lookup in H1. destruct (c_points cfg !! f) as [pts|] eqn:Hp; [|discriminate]. cbn in H1. injection H1 as <-.
    exists pts. split; [reflexivity|]. apply in_seq in H2. destruct (decide (b = length pts)) as [->|NE]; [exfalso|lia].
    unfold allowed in H3. apply andb_prop in H3 as [_ H3]. apply Z.leb_le in H3.
    rewrite (count_if_ext (left_of p S f (length pts)) S) in H3; [lia|]. intros k Hk. exact (left_all U cfg p PK S f pts k Hk Hp).
  Qed.
  Lemma split_good x c g : split_at x = Ok (Some (c, g)) -> good c.
  Proof.
    intros Hs. destruct (split_choice _ _ _ Hs) as (p & Hp & Hc). destruct c as [[i|] f b gl hl]; cbn [ch_own ch_fid ch_bin] in *.
    - destruct (cands_good p (hcfg i) (i_S x) f b (tr_host TR i p Hp) (tr_leaf TR i p Hp) Hc) as (pts & H1 & H2).
      exists p, pts. cbn. repeat (split; [assumption||exact (tr_host TR i p Hp)|]). rewrite <- (tr_hosts TR). eapply lookup_lt_Some; exact Hp.
    - subst p. destruct (cands_good guest gcfg (i_S x) f b (tr_guest TR) (tr_gleaf TR) Hc) as (pts & H1 & H2).
      exists guest, pts. cbn. pose proof (tr_guest TR). auto.
  Qed.
  Lemma goes_left_side c S k : good c -> goes left_of S c k = S k && side c k.
  Proof. intros (p & pts & Ho & _). unfold side, TreeSpec.goes. rewrite Ho. unfold left_of. reflexivity. Qed.
  Lemma goes_right_side c S k : good c -> goes right_of S c k = S k && negb (side c k).
  Proof. intros (p & pts & Ho & _). unfold side, TreeSpec.goes. rewrite Ho. unfold left_of, right_of. reflexivity. Qed.
  Lemma goes_left_model c k row : good c -> tget (c_data (cfg_of (ch_own c))) k = Some row ->
    goes_left (ch_fid c) (MBin (ch_bin c)) (c_zero (cfg_of (ch_own c))) row = Ok (side c k).
  Proof.
    intros (p & pts & Ho & PK & Hp & _) Hr. unfold goes_left, dict_index. destruct (po_zero _ _ _ PK _ _ Hp) as (z & Hz & _). rewrite Hz. cbn [mbind res_bind mnum]. f_equal.
    unfold side, TreeSpec.goes. rewrite Ho. unfold left_of. cbn [andb]. apply tget_elem in Hr; [|apply PK].
    rewrite (po_bin _ _ _ PK k row _ Hr) by (eapply lookup_lt_Some; exact Hp). unfold bin_of, sv_get. rewrite Hz.
    destruct (_ <=? _) eqn:Eb.
    - apply qleb_true. apply zq_le. apply Nat.leb_le in Eb. lia.
    - apply qleb_false. apply zq_lt. apply Nat.leb_gt in Eb. lia.
  Qed.

  (** ** Dispatch *)
  Section Dispatch.
    Context (d num : nat) (l : list (info * dtree)) (T : list node) (pos : dtable K disp).
    Context (IDS : map iid l = seq (length T) (length l)) (PO : pos_ok U pos (map idS (map fst l))) (GR : Forall (grown d) l).
    Local Notation l3 := (number num l).
    Local Notation T1 := (T ++ map mknode l3).
    Definition at_item (k : K) (e : item) : Prop := e ∈ l3 /\ k ∈ U /\ i_S e.1.1 k = true.

    Lemma items_nodup : NoDup (map (fun e => iid e.1) l3).
    Proof. rewrite <- map_map, number_fst, IDS. apply NoDup_ListNoDup, seq_NoDup. Qed.
    Lemma item_uniq e e' : e ∈ l3 -> e' ∈ l3 -> iid e.1 = iid e'.1 -> e = e'.
    Proof.
      intros H1 H2 E0. apply elem_of_list_lookup in H1 as (j & H1). apply elem_of_list_lookup in H2 as (j' & H2).
      assert (j = j') as ->; [|congruence].
      assert (A : map (fun e => iid e.1) l3 !! j = Some (iid e.1)) by (now rewrite map_lookup, H1).
      assert (B : map (fun e => iid e.1) l3 !! j' = Some (iid e.1)) by (now rewrite map_lookup, H2, E0).
      exact (NoDup_lookup _ _ _ _ items_nodup A B).
    Qed.
    Lemma item_in e : e ∈ l3 -> e.1 ∈ l.
    Proof. intros He. rewrite <- (number_fst l num). now apply (elem_of_list_fmap_1 fst). Qed.
    Lemma item_grown e : e ∈ l3 -> grown d e.1.
    Proof. intros He. exact (proj1 (Forall_forall _ _) GR _ (item_in e He)). Qed.
    Lemma item_good e w G H c g t1 t2 : e ∈ l3 -> e.1.2 = TSplit w G H c g t1 t2 -> good c.
    Proof.
      intros He Et. pose proof (item_grown e He) as Hg. destruct e as [[x t] m]. cbn in *. subst t.
      destruct (grown_inv _ _ _ Hg) as (w0 & o & _ & Ho & _ & _ & _ & -> & _). exact (split_good _ _ _ Ho).
    Qed.
    Lemma item_node e : e ∈ l3 -> T1 !! iid e.1 = Some (mknode e).
    Proof.
      intros He. apply elem_of_list_lookup in He as (j & Hj). assert (A : map iid l !! j = Some (iid e.1)).
      { rewrite <- (number_fst l num), map_map, map_lookup, Hj. reflexivity. }
      rewrite IDS in A. apply lookup_seq in A as [A _]. rewrite A. rewrite lookup_app_r by lia. replace (length T + j - length T) with j by lia.
      now rewrite map_lookup, Hj.
    Qed.
    Lemma item_at k v : tget pos k = Some v -> exists e, at_item k e /\ v = DGo 1 (iid e.1).
    Proof.
      intros Hk. destruct (ps_pos _ _ _ PO k v Hk) as (Ku & id & S & Hq & -> & HS). apply elem_of_list_fmap in Hq as (x & [= -> ->] & Hx).
      rewrite <- (number_fst l num), map_map in Hx. apply elem_of_list_fmap in Hx as (e & -> & He). exists e. split; [|reflexivity]. split; [exact He|]. split; assumption.
    Qed.
    Lemma item_pos k e : at_item k e -> tget pos k = Some (DGo 1 (iid e.1)).
    Proof.
      intros (He & Ku & HS). apply (ps_set _ _ _ PO _ (i_S e.1.1)); [|exact Ku|exact HS].
      apply (elem_of_list_fmap_1 idS _ e.1.1). apply (elem_of_list_fmap_1 fst). now apply item_in.
    Qed.
    Lemma at_uniq k e e' : at_item k e -> at_item k e' -> e = e'.
    Proof.
      intros H1 H2. apply item_uniq; [apply H1|apply H2|]. pose proof (item_pos k e H1). pose proof (item_pos k e' H2). congruence.
    Qed.

    Definition gdisp (e : item) (k : K) : disp :=
      match e.1.2 with
      | TLeaf w _ _ => DLeaf w
      | TSplit _ _ _ c _ _ _ =>
          match ch_own c with
          | None => DGo 1 (if side c k then e.2 + 1 else e.2 + 2)
          | Some i => DHost 1 (Some (ch_fid c)) (sname i) (iid e.1) (Some (e.2 + 1)) (Some (e.2 + 2))
          end
      end.
    Definition target (k : K) (v : disp) : Prop := exists e w G H c g t1 t2, at_item k e /\ e.1.2 = TSplit w G H c g t1 t2 /\
      v = DGo 1 (if side c k then e.2 + 1 else e.2 + 2).

    Lemma host_name i : i < nh -> exists r, sname i = HostSite r.
    Proof. intros Hi. destruct (sname i) as [|r] eqn:Es; [|eauto]. exfalso. exact (tr_names TR i Hi Es). Qed.

    Lemma guest_dispatch_ok mk k e row : at_item k e -> tget (c_data gcfg) k = Some row ->
      guest_dispatch T1 (fold_left gmask l3 mk) (c_zero gcfg) (row, (1%Z, iid e.1)) = Ok (gdisp e k).
    Proof.
      intros (He & Ku & HS) Hr. unfold guest_dispatch, list_index. cbn [fst snd]. rewrite (item_node e He). cbn [mbind res_bind].
      pose proof (item_good e) as GD. destruct (gmask_get l3 mk items_nodup) as (_ & _ & MK). specialize (MK e).
      unfold mknode, gdisp in *. destruct (e.1.2) as [w G H|w G H c g t1 t2] eqn:Et; cbn [n_leaf n_weight n_site n_fid n_left n_right]; [reflexivity|].
      specialize (GD _ _ _ _ _ _ _ He eq_refl). specialize (MK _ _ _ _ _ _ _ He eq_refl).
      pose proof (goes_left_model c k row GD) as GL. destruct (ch_own c) as [i|] eqn:Eo; cbn [own_site cfg_of] in *.
      - destruct GD as (p & pts & _ & _ & _ & _ & Li). rewrite Eo in Li. destruct (host_name i Li) as [r Er]. rewrite Er. reflexivity.
      - cbn [the_fid mbind res_bind]. unfold decode_val. rewrite MK by reflexivity. cbn [mbind res_bind]. rewrite (GL Hr). cbn [mbind res_bind].
        destruct (side c k); reflexivity.
    Qed.

    Lemma redispatch_local_ok mk num1 w imp dbn : (forall w0, w = Some w0 -> dt_wf w0) -> with_positions (c_data gcfg) pos = Ok dbn ->
      exists to_host r2 w', redispatch_local (c_zero gcfg) (GState T1 (fold_left gmask l3 mk) num1 w imp) dbn
        = Ok (to_host, r2, GState T1 (fold_left gmask l3 mk) num1 (Some w') imp) /\ dt_wf to_host /\ dt_wf r2 /\ dt_wf w' /\
        (forall k v, tget to_host k = Some v <-> exists e, at_item k e /\ v = gdisp e k /\ is_host_disp v = true) /\
        (forall k v, tget r2 k = Some v <-> exists e, at_item k e /\ v = gdisp e k /\ is_host_disp v = false /\ is_leaf_disp v = false) /\
        (forall k v, tget w' k = Some v <-> (match w with Some w0 => tget w0 k | None => None end = Some v) \/
           (match w with Some w0 => tget w0 k | None => None end = None /\ exists e, at_item k e /\ gdisp e k = DLeaf v)).
    Proof.
      intros Ww Edbn. destruct (with_positions_ok U gcfg pos _ PO) as (dbn' & E' & Wd & Gd). rewrite Edbn in E'. injection E' as <-.
      unfold redispatch_local. cbn [t_nodes t_mask t_num t_weights t_imp].
      destruct (dt_mapValues_rel (guest_dispatch T1 (fold_left gmask l3 mk) (c_zero gcfg)) (fun k _ v => exists e, at_item k e /\ v = gdisp e k) dbn Wd) as (r & Er & Wr & _ & Gr).
      { intros k v Hk. apply Gd in Hk as (row & id & Hr & Hp & ->). destruct (item_at k _ Hp) as (e & He & [= ->]). exists (gdisp e k). split; [|eauto].
        now apply guest_dispatch_ok. }
      rewrite Er. cbn [mbind res_bind].
      assert (RR : forall k v, tget r k = Some v <-> exists e, at_item k e /\ v = gdisp e k).
      { intros k v. specialize (Gr k). split.
        - intros Hv. rewrite Hv in Gr. destruct (tget dbn k); [exact Gr|contradiction].
        - intros (e & He & ->). pose proof (item_pos k e He) as Hp. destruct He as (He & Ku & HS).
          destruct (proj2 (tget_is_Some (c_data gcfg) k)) as [row Hrow]; [apply (po_keys _ _ _ (tr_guest TR)); exact Ku|].
          assert (Hd : tget dbn k = Some (row, (1%Z, iid e.1))) by (apply Gd; eauto).
          rewrite Hd in Gr. destruct (tget r k) as [v|]; [|contradiction]. destruct Gr as (e' & He' & ->). rewrite (at_uniq k e' e He'); [reflexivity|].
          split; [exact He|]. split; assumption. }
      destruct (dt_filter_rel (fun _ v => is_host_disp v) r Wr) as (th & Eth & Wth & Gth). rewrite Eth. cbn [mbind res_bind].
      destruct (dt_subtract_rel r th Wr) as (r1 & E1 & W1 & G1). rewrite E1. cbn [mbind res_bind].
      destruct (dt_filter_rel (fun _ v => is_leaf_disp v) r1 W1) as (lf & Elf & Wlf & Glf). rewrite Elf. cbn [mbind res_bind].
      destruct (dt_mapValues_rel leaf_value_of (fun _ v w => v = DLeaf w) lf Wlf) as (lw & Elw & Wlw & _ & Glw).
      { intros k v Hk. rewrite Glf in Hk. destruct (tget r1 k) as [v'|]; [|discriminate]. destruct (is_leaf_disp v') eqn:Ev; [|discriminate]. injection Hk as <-.
        destruct v' as [w0|? ?|? ? ? ? ? ?]; try discriminate. exists w0. auto. }
      rewrite Elw. cbn [mbind res_bind].
      assert (R1 : forall k, tget r1 k = match tget r k with Some v => if is_host_disp v then None else Some v | None => None end).
      { intros k. rewrite G1, Gth. destruct (tget r k) as [v|]; [|reflexivity]. destruct (is_host_disp v); reflexivity. }
      assert (LW : forall k v, tget lw k = Some v <-> tget r k = Some (DLeaf v)).
      { intros k v. specialize (Glw k). rewrite Glf, R1 in Glw. destruct (tget r k) as [v'|] eqn:Erk.
        - destruct v' as [w0|? ?|? ? ? ? ? ?]; cbn in Glw.
          + destruct (tget lw k) as [w1|]; [|contradiction]. injection Glw as <-. split; congruence.
          + destruct (tget lw k); [contradiction|]. split; discriminate.
          + destruct (tget lw k); [contradiction|]. split; discriminate.
        - destruct (tget lw k); [contradiction|]. split; discriminate. }
      assert (WX : exists w', match w with Some w0 => dt_union (fun a _ => a) w0 lw | None => Ok lw end = Ok w' /\ dt_wf w' /\
        forall k, tget w' k = match (match w with Some w0 => tget w0 k | None => None end) with Some v => Some v | None => tget lw k end).
      { destruct w as [w0|]; [|exists lw; auto]. destruct (dt_union_rel w0 lw (Ww w0 eq_refl) Wlw) as (w' & A & B & D). exists w'. auto. }
      destruct WX as (w' & Ew & Ww' & Gw). rewrite Ew. cbn [mbind res_bind].
      destruct (dt_subtract_rel r1 lf W1) as (r2 & E2 & W2 & G2). rewrite E2. cbn [mbind res_bind].
      exists th, r2, w'. split; [reflexivity|]. split; [exact Wth|]. split; [exact W2|]. split; [exact Ww'|]. split; [|split].
      - intros k v. rewrite Gth. specialize (RR k). destruct (tget r k) as [v'|] eqn:Erk.
        + destruct (proj1 (RR v') eq_refl) as (e & He & ->). destruct (is_host_disp (gdisp e k)) eqn:Eh.
          * split; [intros [= <-]; eauto|]. intros (e' & He' & -> & _). now rewrite (at_uniq k e e' He He').
          * split; [discriminate|]. intros (e' & He' & -> & X). rewrite (at_uniq k e' e He' He) in X. congruence.
        + split; [discriminate|]. intros (e' & He' & -> & _). assert (X : None = Some (gdisp e' k)) by (apply RR; eauto). discriminate.
      - intros k v. rewrite G2, Glf, R1. specialize (RR k). destruct (tget r k) as [v'|] eqn:Erk.
        + destruct (proj1 (RR v') eq_refl) as (e & He & ->). destruct (is_host_disp (gdisp e k)) eqn:Eh.
          * split; [discriminate|]. intros (e' & He' & -> & X & _). rewrite (at_uniq k e' e He' He) in X. congruence.
          * destruct (is_leaf_disp (gdisp e k)) eqn:Elf'.
            -- split; [discriminate|]. intros (e' & He' & -> & _ & X). rewrite (at_uniq k e' e He' He) in X. congruence.
            -- split; [intros [= <-]; eauto|]. intros (e' & He' & -> & _). now rewrite (at_uniq k e e' He He').
        + split; [discriminate|]. intros (e' & He' & -> & _). assert (X : None = Some (gdisp e' k)) by (apply RR; eauto). discriminate.
      - intros k v. rewrite Gw. destruct (match w with Some w0 => tget w0 k | None => None end) as [v0|] eqn:Ew0.
        + split; [intros [= <-]; auto|]. intros [X|[X _]]; congruence.
        + rewrite LW, RR. split; [intros (e & He & X); right; eauto|]. intros [X|[_ (e & He & X)]]; [discriminate|]. exists e. auto.
    Qed.

    (** What host i answers. *)
    Lemma host_answer (masks : dict nat mval) i to_host : i < nh ->
      (forall e w G H c g t1 t2, e ∈ l3 -> e.1.2 = TSplit w G H c g t1 t2 -> ch_own c = Some i -> dict_get (iid e.1) masks = Some (MBin (ch_bin c))) ->
      dt_wf to_host -> (forall k v, tget to_host k = Some v <-> exists e, at_item k e /\ v = gdisp e k /\ is_host_disp v = true) ->
      exists ans, dt_join (host_dispatch (sname i) masks (c_zero (hcfg i))) to_host (c_data (hcfg i)) = Ok ans /\ dt_wf ans /\
        forall k, match tget to_host k with
                  | None => tget ans k = None
                  | Some v => exists v', tget ans k = Some v' /\
                      match v with DHost _ _ sn _ _ _ => if decide (sn = sname i) then target k v' else v' = v | _ => False end
                  end.
    Proof.
      intros Li HM Wt Gt. destruct (lookup_lt_is_Some_2 hosts i) as [p Hp]; [rewrite (tr_hosts TR); exact Li|]. pose proof (tr_host TR i p Hp) as PK.
      destruct (dt_join_rel (host_dispatch (sname i) masks (c_zero (hcfg i)))
        (fun k v _ v' => match v with DHost _ _ sn _ _ _ => if decide (sn = sname i) then target k v' else v' = v | _ => False end)
        to_host (c_data (hcfg i)) (po_wf _ _ _ PK)) as (ans & Ea & Wa & _ & Ga).
      { intros k v row Hv Hrow. apply Gt in Hv as (e & He & -> & Hh). unfold gdisp in *. pose proof (item_good e) as GD. specialize (HM e).
        destruct (e.1.2) as [w G H|w G H c g t1 t2] eqn:Et; [discriminate|]. destruct (ch_own c) as [i'|] eqn:Eo; [|discriminate].
        cbn [host_dispatch]. destruct (decide (sname i' = sname i)) as [Es|Ns]; [|eauto].
        pose proof (GD _ _ _ _ _ _ _ (proj1 He) eq_refl) as Gc. assert (Li' : i' < nh) by (destruct Gc as (? & ? & _ & _ & _ & _ & X); now rewrite Eo in X).
        assert (i' = i) as -> by exact (tr_inj TR i' i Li' Li Es).
        cbn [the_fid mbind res_bind]. unfold decode_val. rewrite (HM _ _ _ _ _ _ _ (proj1 He) eq_refl Eo). cbn [mbind res_bind].
        pose proof (goes_left_model c k row Gc) as GL. rewrite Eo in GL. cbn [cfg_of] in GL. rewrite (GL Hrow). cbn [mbind res_bind].
        exists (DGo 1 (if side c k then e.2 + 1 else e.2 + 2)). split; [destruct (side c k); reflexivity|].
        exists e, w, G, H, c, g, t1, t2. auto. }
      exists ans. split; [exact Ea|]. split; [exact Wa|]. intros k. specialize (Ga k). destruct (tget to_host k) as [v|] eqn:Ev.
      - apply Gt in Ev as (e & He & _). destruct (proj2 (tget_is_Some (c_data (hcfg i)) k)) as [row Hrow]; [apply (po_keys _ _ _ PK); apply He|].
        rewrite Hrow in Ga. destruct (tget ans k) as [v'|]; [eauto|contradiction].
      - destruct (tget (c_data (hcfg i)) k), (tget ans k); [contradiction|reflexivity|contradiction|reflexivity].
    Qed.

    (** ** Putting the answers together *)
    Section Merge.
      Context (to_host r2 : dtable K disp) (Wt : dt_wf to_host) (W2 : dt_wf r2).
      Context (Gt : forall k v, tget to_host k = Some v <-> exists e, at_item k e /\ v = gdisp e k /\ is_host_disp v = true).
      Context (G2 : forall k v, tget r2 k = Some v <-> exists e, at_item k e /\ v = gdisp e k /\ is_host_disp v = false /\ is_leaf_disp v = false).
      Context (ans : nat -> dtable K disp).
      Context (Wa : forall i, i < nh -> dt_wf (ans i)).
      Context (Ga : forall i k, i < nh -> match tget to_host k with
                  | None => tget (ans i) k = None
                  | Some v => exists v', tget (ans i) k = Some v' /\
                      match v with DHost _ _ sn _ _ _ => if decide (sn = sname i) then target k v' else v' = v | _ => False end
                  end).
      Definition resolved (seen : list nat) (acc : dtable K disp) : Prop := dt_wf acc /\
        forall k, match tget to_host k with
                  | None => tget acc k = None
                  | Some v => exists v', tget acc k = Some v' /\
                      (target k v' \/ (v' = v /\ match v with DHost _ _ sn _ _ _ => forall i, i ∈ seen -> sn <> sname i | _ => False end))
                  end.

      Lemma merge_fold is : forall seen acc, (forall i, i ∈ is -> i < nh) -> resolved seen acc ->
        exists nd, foldM (dt_join pick_disp) acc (map ans is) = Ok nd /\ resolved (seen ++ is) nd.
      Proof.
        induction is as [|i is IH]; intros seen acc Hi [Wc Hc]; cbn [map foldM].
        - exists acc. rewrite app_nil_r. split; [reflexivity|]. now split.
        - assert (Li : i < nh) by (apply Hi; left).
          destruct (dt_join_rel pick_disp (fun k a b v' => tget to_host k = None \/ exists v, tget to_host k = Some v /\
             (target k v' \/ (v' = v /\ match v with DHost _ _ sn _ _ _ => forall j, j ∈ seen ++ [i] -> sn <> sname j | _ => False end))) acc (ans i) (Wa i Li)) as (nd & En & Wn & _ & Gn).
          { intros k a b Ha Hb. specialize (Hc k). pose proof (Ga i k Li) as Gk. destruct (tget to_host k) as [v|] eqn:Ev; [|congruence].
            destruct Hc as (a' & Ha' & Hcase). rewrite Ha in Ha'. injection Ha' as <-. destruct Gk as (b' & Hb' & Gk). rewrite Hb in Hb'. injection Hb' as <-.
            destruct Hcase as [Ht|[-> Hs]].
            - exists a. destruct Ht as (e & w & G & H & c & g & t1 & t2 & A1 & A2 & ->). split; [reflexivity|]. right. exists v. split; [reflexivity|]. left.
              exists e, w, G, H, c, g, t1, t2. auto.
            - exists b. destruct v as [|s0 i0|s0 f0 sn i0 c1 c2]; try contradiction. split; [reflexivity|]. right. eexists. split; [reflexivity|].
              destruct (decide (sn = sname i)) as [Es|Ns]; [left; exact Gk|]. right. split; [exact Gk|]. intros j Hj. apply elem_of_app in Hj as [Hj|Hj]; [auto|].
              apply elem_of_list_singleton in Hj as ->. exact Ns. }
          rewrite En. cbn [mbind res_bind]. destruct (IH (seen ++ [i]) nd) as (nd' & E' & R').
          { intros j Hj. apply Hi. now right. }
          { split; [exact Wn|]. intros k. specialize (Gn k). specialize (Hc k). pose proof (Ga i k Li) as Gk. destruct (tget to_host k) as [v|] eqn:Ev.
            - destruct Hc as (a & Ha & _), Gk as (b & Hb & _). rewrite Ha, Hb in Gn. destruct (tget nd k) as [v'|]; [|contradiction].
              exists v'. split; [reflexivity|]. destruct Gn as [Gn|(v0 & [= <-] & Gn)]; [discriminate|]. exact Gn.
            - rewrite Hc in Gn. destruct (tget nd k); [|reflexivity]. destruct (tget (ans i) k); contradiction. }
          exists nd'. rewrite <- app_assoc in R'. auto.
      Qed.

      Lemma merge_ok : 0 < nh -> exists pos', redispatch_merge (map ans (seq 0 nh)) r2 = Ok pos' /\ dt_wf pos' /\ forall k v, tget pos' k = Some v <-> target k v.
      Proof.
        intros Hn. assert (exists n, nh = Datatypes.S n) as [n En] by (exists (nh - 1); lia).
        replace (seq 0 nh) with (0 :: seq 1 n) by (rewrite En; reflexivity). cbn [map redispatch_merge].
        destruct (merge_fold (seq 1 n) [0] (ans 0)) as (nd & Ef & Wn & Hr).
        { intros i Hi. apply elem_of_list_In, in_seq in Hi. lia. }
        { split; [apply Wa; lia|]. intros k. pose proof (Ga 0 k ltac:(lia)) as Gk. destruct (tget to_host k) as [v|] eqn:Ev; [|exact Gk].
          destruct Gk as (v' & Hv & Gk). exists v'. split; [exact Hv|]. destruct v as [|s0 i0|s0 f0 sn i0 c1 c2]; try contradiction.
          destruct (decide (sn = sname 0)) as [Es|Ns]; [left; exact Gk|]. right. split; [exact Gk|]. intros j Hj. apply elem_of_list_singleton in Hj as ->. exact Ns. }
        rewrite Ef. cbn [mbind res_bind]. destruct (dt_union_rel nd r2 Wn W2) as (pos' & Eu & Wu & Gu). exists pos'. split; [exact Eu|]. split; [exact Wu|].
        assert (RES : forall k v, tget to_host k = Some v -> exists v', tget nd k = Some v' /\ target k v').
        { intros k v Hv. specialize (Hr k). rewrite Hv in Hr. destruct Hr as (v' & Hv' & [Ht|[-> Hs]]); [eauto|exfalso].
          apply Gt in Hv as (e & He & Ev & Hh). unfold gdisp in Ev. pose proof (item_good e) as GD. destruct (e.1.2) as [w G H|w G H c g t1 t2]; [subst v; discriminate|].
          destruct (ch_own c) as [i|] eqn:Eo; [|subst v; discriminate]. subst v. specialize (GD _ _ _ _ _ _ _ (proj1 He) eq_refl) as (p & pts & _ & _ & _ & _ & Li).
          rewrite Eo in Li. apply (Hs i); [|reflexivity]. destruct i as [|i]; [left|right]. apply elem_of_list_In, in_seq. lia. }
        intros k v. rewrite Gu. destruct (tget to_host k) as [v0|] eqn:Ev0.
        - destruct (RES k v0 Ev0) as (v' & Hv' & Ht). rewrite Hv'. split; [intros [= <-]; exact Ht|]. intros Ht'.
          destruct Ht as (e & w & G & H & c & g & t1 & t2 & A1 & A2 & ->). destruct Ht' as (e' & w' & G' & H' & c' & g' & t1' & t2' & B1 & B2 & ->).
          assert (e' = e) as -> by exact (at_uniq k _ _ B1 A1). rewrite A2 in B2. injection B2 as <- <- <- <- <- <- <-. reflexivity.
        - specialize (Hr k). rewrite Ev0 in Hr. rewrite Hr. rewrite G2. split.
          + intros (e & He & -> & Hh & Hl). unfold gdisp, target in *. destruct (e.1.2) as [w G H|w G H c g t1 t2] eqn:Et; [discriminate|].
            destruct (ch_own c) as [i|] eqn:Eo; [discriminate|]. exists e, w, G, H, c, g, t1, t2. auto.
          + intros (e & w & G & H & c & g & t1 & t2 & A1 & A2 & ->). exists e. split; [exact A1|].
            destruct (ch_own c) as [i|] eqn:Eo.
            * exfalso. assert (X : tget to_host k = Some (gdisp e k)); [|congruence]. apply Gt. exists e. unfold gdisp. rewrite A2, Eo. auto.
            * unfold gdisp. rewrite A2, Eo. auto.
      Qed.
    End Merge.

    Lemma kids_pos pos' : dt_wf pos' -> (forall k v, tget pos' k = Some v <-> target k v) -> pos_ok U pos' (map idS (map fst (kids l3))).
    Proof.
      intros Wp Gp. split.
      - exact Wp.
      - replace ((map idS (map fst (kids l3))).*1) with (map iid (kids l3)); [rewrite kids_ids; apply NoDup_ListNoDup, seq_NoDup|].
        change ((map idS (map fst (kids l3))).*1) with (map fst (map idS (map fst (kids l3)))). rewrite !map_map. reflexivity.
      - intros k v Hv. apply Gp in Hv as (e & w & G & H & c & g & t1 & t2 & (He & Ku & HS) & A2 & ->). split; [exact Ku|].
        pose proof (item_good e _ _ _ _ _ _ _ He A2) as GD.
        destruct (side c k) eqn:Es.
        + exists (e.2 + 1), (goes left_of (i_S e.1.1) c). split; [|split; [reflexivity|]; rewrite goes_left_side, HS, Es by exact GD; reflexivity].
          apply (elem_of_list_fmap_1 idS _ (Info (e.2 + 1) (goes left_of (i_S e.1.1) c) (ch_g c) (ch_h c))).
          apply (elem_of_list_fmap_1 fst _ (Info (e.2 + 1) (goes left_of (i_S e.1.1) c) (ch_g c) (ch_h c), t1)).
          apply kids_elem. exists e. split; [exact He|]. unfold mkkids. rewrite A2. left.
        + exists (e.2 + 2), (goes right_of (i_S e.1.1) c). split; [|split; [reflexivity|]; rewrite goes_right_side, HS, Es by exact GD; reflexivity].
          apply (elem_of_list_fmap_1 idS _ (Info (e.2 + 2) (goes right_of (i_S e.1.1) c) (G - ch_g c)%Qc (H - ch_h c)%Qc)).
          apply (elem_of_list_fmap_1 fst _ (Info (e.2 + 2) (goes right_of (i_S e.1.1) c) (G - ch_g c)%Qc (H - ch_h c)%Qc, t2)).
          apply kids_elem. exists e. split; [exact He|]. unfold mkkids. rewrite A2. right. left.
      - intros id S k Hq Ku HS. apply Gp. apply elem_of_list_fmap in Hq as (x & [= -> ->] & Hx). apply elem_of_list_fmap in Hx as ([x' t] & -> & Hx). cbn [fst] in *.
        apply kids_elem in Hx as (e & He & Hx). unfold mkkids in Hx. destruct (e.1.2) as [w G H|w G H c g t1 t2] eqn:Et; [inversion Hx|].
        pose proof (item_good e _ _ _ _ _ _ _ He Et) as GD.
        apply elem_of_cons in Hx as [[= -> ->]|Hx]; [|apply elem_of_list_singleton in Hx as [= -> ->]]; cbn [i_S i_id] in *.
        + rewrite goes_left_side in HS by exact GD. apply andb_prop in HS as [H1 H2]. exists e, w, G, H, c, g, t1, t2. rewrite H2. unfold at_item. auto.
        + rewrite goes_right_side in HS by exact GD. apply andb_prop in HS as [H1 H2]. apply negb_true_iff in H2. exists e, w, G, H, c, g, t1, t2. rewrite H2. unfold at_item. auto.
    Qed.

    (** Trees of the children. *)
    Lemma kids_grown d' : d = Datatypes.S d' -> Forall (grown d') (kids l3).
    Proof.
      intros Ed. apply Forall_forall. intros [x t] Hx. apply kids_elem in Hx as (e & He & Hx). pose proof (item_grown e He) as Hg.
      destruct e as [[x0 t0] m]. unfold mkkids in Hx. cbn [fst snd] in *. destruct t0 as [w G H|w G H c g t1 t2]; [inversion Hx|].
      destruct (grown_inv _ _ _ Hg) as (w0 & o & _ & _ & _ & -> & -> & _ & _ & d2 & E2 & Hl & Hr). assert (d2 = d') as -> by congruence.
      apply elem_of_cons in Hx as [[= -> ->]|Hx]; [exact Hl|]. apply elem_of_list_singleton in Hx as [= -> ->]. exact Hr.
    Qed.
    Lemma kids_none : d = 0 -> kids l3 = [].
    Proof.
      intros Ed. destruct (kids l3) as [|xt q] eqn:Ek; [reflexivity|exfalso]. assert (Hx : xt ∈ kids l3) by (rewrite Ek; left).
      apply kids_elem in Hx as (e & He & Hx). pose proof (item_grown e He) as Hg. destruct e as [[x0 t0] m]. unfold mkkids in Hx. cbn [fst snd] in *.
      destruct t0 as [w G H|w G H c g t1 t2]; [inversion Hx|]. destruct (grown_inv _ _ _ Hg) as (w0 & o & _ & _ & _ & _ & _ & _ & _ & d2 & E2 & _). congruence.
    Qed.
  End Dispatch.
End Level.
