(** One batch of nodes: the messages of the split search, and what comes out of it. *)
From Verif Require Import HistPaillier.
From Verif Require Export TreeCand.
Local Open Scope nat_scope.

(** ** Lists *)
Lemma mapR_pointwise {A B} (f : A -> res B) l ys : length l = length ys ->
  (forall j x y, l !! j = Some x -> ys !! j = Some y -> f x = Ok y) -> mapR f l = Ok ys.
Proof.
  revert ys. induction l as [|x l IH]; intros [|y ys] L H; try discriminate; [reflexivity|]. cbn.
  rewrite (H 0 x y eq_refl eq_refl). rewrite (IH ys); [reflexivity|cbn in L; lia|]. intros j. exact (H (S j)).
Qed.
Lemma mapR_inv {A B} (f : A -> res B) l ys : mapR f l = Ok ys -> length ys = length l /\ forall j x, l !! j = Some x -> exists y, ys !! j = Some y /\ f x = Ok y.
Proof.
  revert ys. induction l as [|x l IH]; intros ys; cbn.
  - intros [= <-]. split; [reflexivity|]. intros j x H. now rewrite lookup_nil in H.
  - destruct (f x) as [y|e] eqn:E; [|discriminate]. destruct (mapR f l) as [ys'|e] eqn:E2; [|discriminate]. intros [= <-].
    destruct (IH ys' eq_refl) as [L D]. split; [cbn; lia|]. intros [|j] x'; cbn; [intros [= <-]; eauto|apply D].
Qed.
Lemma list_choice {A B} (R : nat -> A -> B -> Prop) l : (forall j x, l !! j = Some x -> exists z, R j x z) ->
  exists zs, length zs = length l /\ forall j x z, l !! j = Some x -> zs !! j = Some z -> R j x z.
Proof.
  revert R. induction l as [|x l IH]; intros R H.
  - exists []. split; [reflexivity|]. intros j x z Hx. now rewrite lookup_nil in Hx.
  - destruct (H 0 x eq_refl) as [z Hz]. destruct (IH (fun j => R (S j))) as (zs & L & D). { intros j x' Hx. exact (H (S j) x' Hx). }
    exists (z :: zs). split; [cbn; lia|]. intros [|j] x' z'; cbn; [congruence|apply D].
Qed.
Lemma fin_choice {X} n (P : nat -> X -> Prop) : 0 < n -> (forall i, i < n -> exists x, P i x) -> exists f, forall i, i < n -> P i (f i).
Proof.
  intros L H. destruct (H 0 L) as [x0 _].
  assert (G : forall m, m <= n -> exists f : nat -> X, forall i, i < m -> P i (f i)).
  { induction m as [|m IH]; intros Lm; [exists (fun _ => x0); lia|]. destruct IH as [f Hf]; [lia|]. destruct (H m) as [x Hx]; [lia|].
    exists (fun i => if decide (i = m) then x else f i). intros i Hi. destruct (decide (i = m)) as [->|]; [exact Hx|]. apply Hf. lia. }
  exact (G n ltac:(lia)).
Qed.
Lemma fin_choice_any {X} (x0 : X) n (P : nat -> X -> Prop) : (forall i, i < n -> exists x, P i x) -> exists f, forall i, i < n -> P i (f i).
Proof. destruct n as [|n]; [intros _; exists (fun _ => x0); lia|]. apply fin_choice. lia. Qed.
Lemma map_lookup {A B} (f : A -> B) l i : map f l !! i = option_map f (l !! i).
Proof. exact (list_lookup_fmap f l i). Qed.
Lemma combine_lookup {A B} (l : list A) (m : list B) i a b : l !! i = Some a -> m !! i = Some b -> combine l m !! i = Some (a, b).
Proof. revert m i. induction l as [|x l IH]; intros [|y m] [|i]; cbn; try discriminate; [congruence|apply IH]. Qed.
Lemma combine_lookup_inv {A B} (l : list A) (m : list B) i p : combine l m !! i = Some p -> l !! i = Some p.1 /\ m !! i = Some p.2.
Proof. revert m i. induction l as [|x l IH]; intros [|y m] [|i]; cbn; try discriminate; [intros [= <-]; auto|apply IH]. Qed.

Lemma mapR_tag {A B X} (f : A -> res X) (g : A -> B) l l' :
  mapR (fun a => x ← f a; Ok (g a, x)) l = Ok l' -> exists xs, mapR f l = Ok xs /\ l' = combine (map g l) xs.
Proof.
  revert l'. induction l as [|a l IH]; intros l'; cbn; [intros [= <-]; now exists []|].
  destruct (f a) as [x|e]; [|discriminate]. cbn. destruct (mapR _ l) as [l0|e]; [|discriminate]. intros [= <-].
  destruct (IH l0 eq_refl) as (xs & -> & ->). now exists (x :: xs).
Qed.
Lemma mapR_map {A B X} (f : B -> res X) (g : A -> B) l : mapR f (map g l) = mapR (fun a => f (g a)) l.
Proof. induction l as [|a l IH]; cbn; [reflexivity|]. now rewrite IH. Qed.

(** ** Rules for protocol steps *)
Section Rules.
  Context {K : Type} `{EqDecision K} {C E R S : Type} (n : nat).
  Local Notation msg := (msg K C E).

  Lemma runs_gather_as {X A B} (p : msg -> res X) (m : nat -> msg) (a : nat -> X) (k : list X -> cps nat msg R A) (h : nat -> cps unit msg S B) r b :
    (forall i, i < n -> p (m i) = Ok (a i)) -> runs n (k (map a (seq 0 n))) h r b ->
    runs n (cbind (gather_as n p) k) (fun i => cbind (csend tt (m i)) (fun _ => h i)) r b.
  Proof.
    intros Hp Hk. refine (runs_seq n (gather n) (fun ms => cbind (clift (mapR p ms)) k) (fun i => csend tt (m i)) (fun i _ => h i) _ _ _ _ (runs_gather n m) _).
    eapply runs_glift; [|exact Hk]. rewrite mapR_map. apply mapR_ok_fn. intros i Hi. apply elem_of_list_In, in_seq in Hi. apply Hp. lia.
  Qed.
  Lemma runs_bcast_as {X A B} (p : msg -> res X) (m : msg) (x : X) (k : cps nat msg R A) (h : nat -> X -> cps unit msg S B) r b :
    p m = Ok x -> runs n k (fun i => h i x) r b -> runs n (cbind (bcast n m) (fun _ => k)) (fun i => cbind (recv_as p) (h i)) r b.
  Proof.
    intros Hp Hk. refine (runs_seq n (bcast n m) (fun _ => k) (fun i => crecv tt) (fun i y => cbind (clift (p y)) (h i)) _ _ _ _ (runs_bcast n m) _).
    cbv beta. apply (runs_hlift n (fun _ => p m) (fun _ => x)); [auto|exact Hk].
  Qed.
  Lemma runs_scatter_as {X A B} (p : msg -> res X) (f : nat -> res msg) (m : nat -> msg) (x : nat -> X) (k : cps nat msg R A) (h : nat -> X -> cps unit msg S B) r b :
    (forall i, i < n -> f i = Ok (m i)) -> (forall i, i < n -> p (m i) = Ok (x i)) -> runs n k (fun i => h i (x i)) r b ->
    runs n (cbind (cfold (fun _ i => cbind (clift (f i)) (fun y => csend i y)) tt (seq 0 n)) (fun _ => k)) (fun i => cbind (recv_as p) (h i)) r b.
  Proof.
    intros Hf Hp Hk.
    refine (runs_seq n _ (fun _ => k) (fun i => crecv tt) (fun i y => cbind (clift (p y)) (h i)) _ _ _ _ (runs_scatter n f m Hf) _).
    cbv beta. apply (runs_hlift n (fun i => p (m i)) x); [exact Hp|exact Hk].
  Qed.
End Rules.

(** ** Gains *)
Lemma no_zero_dec_ok lam H hl : no_zero_dec lam H hl = true -> no_zero lam H hl.
Proof.
  unfold no_zero_dec. intros X. apply andb_prop in X as [X X3]. apply andb_prop in X as [X1 X2].
  apply negb_true_iff, bool_decide_eq_false in X1, X2, X3. repeat split; assumption.
Qed.
Lemma sgain_inv lam G H gl hl x : sgain lam G H gl hl = Ok x -> no_zero lam H hl /\ x = gain_of lam G H gl hl.
Proof. unfold sgain. destruct (no_zero_dec lam H hl) eqn:Z; [|discriminate]. intros [= <-]. split; [now apply no_zero_dec_ok|reflexivity]. Qed.
Lemma sweight_model lam G H : node_weight lam G H = sweight lam G H.
Proof. reflexivity. Qed.

Section Train.
  Context {K : Type} `{EqDecision K} {C E : Type} (U : list K) (NDU : NoDup U).
  Context (nh : nat) (gcfg : pcfg K) (hcfg : nat -> pcfg K) (guest : party K) (hosts : list (party K)) (sname : nat -> site).
  Context (gh : dtable K (Qc * Qc)) (ghc : dtable K (C * C)) (vg vh eg eh : K -> Qc).
  Context (O : numops C) (rep : C -> Z -> Qc -> Prop) (NL : numlaws O rep).
  Context (dec : C -> res Qc) (gdec : E -> res Qc) (genc : nat -> nat -> Qc -> res E) (rnd : Qc -> Qc) (rt : Qc -> res Qc).
  Local Notation msg := (msg K C E).
  Local Notation lam := (reg_lambda (c_par gcfg)).
  Local Notation mi := (min_impurity (c_par gcfg)).

  Record train_ok : Prop := {
    tr_hosts : length hosts = nh;
    tr_guest : party_ok U gcfg guest;
    tr_host : forall i p, hosts !! i = Some p -> party_ok U (hcfg i) p;
    tr_gleaf : (1 <= p_min_leaf guest)%Z;
    tr_leaf : forall i p, hosts !! i = Some p -> (1 <= p_min_leaf p)%Z;
    tr_names : forall i, i < nh -> sname i <> GuestSite;
    tr_inj : forall i j, i < nh -> j < nh -> sname i = sname j -> i = j;
    tr_step : c_step gcfg <> 0 /\ forall i, i < nh -> c_step (hcfg i) = c_step gcfg;
    tr_depth : forall i, i < nh -> c_depth (hcfg i) = c_depth gcfg;
    tr_size : (3 * Z.of_nat (length U) <= 2 ^ 53)%Z;
    tr_gh : dt_wf gh /\ (forall k, k ∈ dt_keys gh <-> k ∈ U) /\ forall k c, (k, c) ∈ dt_data gh -> c = (vg k, vh k);
    tr_ghc : dt_wf ghc /\ (forall k, k ∈ dt_keys ghc <-> k ∈ U) /\ forall k c, (k, c) ∈ dt_data ghc -> rep c.1 1 (eg k) /\ rep c.2 1 (eh k);
    tr_dec : forall c L q, rep c L q -> (1 <= L <= 3 * Z.of_nat (length U))%Z -> dec c = Ok (rnd q);
    tr_gain : forall i nid x y, rt x = Ok y -> exists e, genc i nid x = Ok e /\ gdec e = Ok y;
    tr_near : forall x y, rt x = Ok y -> (y <= x + FLOAT_ZERO)%Qc
  }.
  Context (TR : train_ok).

  Local Notation guest_best := (guest_best U lam mi guest vg vh).
  Local Notation host_best := (host_best U lam mi eg eh rnd rt).
  Local Notation best_split := (best_split U lam mi guest hosts vg vh eg eh rnd rt).

  (** ** One node at the guest *)
  Definition own_site (o : option nat) : site := match o with None => GuestSite | Some i => sname i end.
  Definition to_si (o : option (choice * Qc)) : splitinfo Qc Qc :=
    match o with
    | Some (c, x) => SInfo (own_site (ch_own c)) (Some (ch_fid c)) (match ch_own c with None => Some (ch_bin c) | Some _ => None end)
                       (Some (ch_g c)) (Some (ch_h c)) (Some x)
    | None => SInfo GuestSite None None None None (Some (mi - FLOAT_ZERO)%Qc)
    end.

  Lemma propose_own own p S G H sg sh c x : propose U lam mi own p S G H sg sh = Ok (Some (c, x)) -> ch_own c = own.
  Proof.
    unfold propose. cbv zeta. destruct (mapR _ _) as [l|e] eqn:El; [|discriminate]. cbn [mbind res_bind]. intros [= Ef].
    destruct (mapR_tag _ _ _ _ El) as (xs & _ & ->). apply first_best_elem, elem_of_list_In, in_combine_l in Ef.
    apply in_map_iff in Ef as (fb & <- & _). reflexivity.
  Qed.

  Lemma guest_node S hj o : node_hist U gcfg guest (fun c _ q => c = q) vg vh hj S -> guest_best S = Ok o ->
    find_split_guest (c_par gcfg) (c_valid gcfg) hj = Ok (to_si o).
  Proof.
    intros NH Hb. destruct (node_cands U gcfg guest (tr_guest TR) (fun c _ q => c = q) vg vh S hj NH) as [EC OKC].
    unfold TreeSpec.guest_best, propose in Hb. cbv zeta in Hb. cbn [ch_g ch_h] in Hb.
    set (mk := fun fb : nat * nat => Choice None fb.1 fb.2 (sum_if (left_of guest S fb.1 fb.2) vg U) (sum_if (left_of guest S fb.1 fb.2) vh U)) in *.
    destruct (mapR _ _) as [l|e] eqn:El in Hb; [|discriminate]. cbn [mbind res_bind] in Hb. injection Hb as <-.
    destruct (mapR_tag _ mk _ _ El) as (xs & Exs & ->). rewrite <- EC in Exs |- *. rewrite mapR_map in Exs.
    set (cl := cand_list (c_par gcfg) (c_valid gcfg) 0 hj) in *.
    assert (AT : forall c, c ∈ cl -> tg c.2.1 = sum_if (left_of guest S c.1.1 c.1.2) vg U /\ th c.2.1 = sum_if (left_of guest S c.1.1 c.1.2) vh U /\
                                     tg c.2.2 = sum_if S vg U /\ th c.2.2 = sum_if S vh U).
    { intros c Hc. destruct (OKC c Hc) as ((_ & L & _ & A1 & A2) & (_ & L' & _ & A3 & A4) & _). auto. }
    assert (Exs' : mapR (cgain lam) cl = Ok xs).
    { apply mapR_inv in Exs as [Lx Dx]. apply mapR_pointwise; [lia|]. intros j c y Hc Hy. destruct (Dx j c Hc) as (y' & Hy' & Ey).
      assert (y' = y) as -> by congruence. apply elem_of_list_lookup_2 in Hc. destruct (AT c Hc) as (A1 & A2 & A3 & A4).
      unfold cgain. rewrite A1, A2, A3, A4. destruct (sgain_inv _ _ _ _ _ _ Ey) as [Z ->]. now apply split_gain_ok. }
    assert (LV : length (c_valid gcfg) >= length hj) by (rewrite (po_len _ _ _ (tr_guest TR)); destruct NH as [-> _]; lia).
    rewrite (find_split_guest_ok _ _ _ _ LV Exs'). f_equal. fold cl. clear Exs Exs' El.
    rewrite map_map.
    replace (combine (map (fun x => mk x.1) cl) xs) with (map (fun ax => (mk ax.1.1, ax.2)) (combine cl xs)).
    2:{ clear. revert xs. induction cl as [|c cl IH]; intros [|x xs]; cbn; [reflexivity..|]. f_equal. apply IH. }
    rewrite (first_best_map (fun c => mk c.1)). destruct (first_best mi (combine cl xs)) as [[c x]|] eqn:Ef; [|reflexivity].
    cbn [option_map fst snd to_si guest_result ch_own ch_fid ch_bin ch_g ch_h mk own_site].
    assert (Hc : c ∈ cl) by (apply first_best_elem, elem_of_list_In, in_combine_l, elem_of_list_In in Ef; exact Ef).
    destruct (AT c Hc) as (A1 & A2 & _). now rewrite A1, A2.
  Qed.

  (** ** One node at a host, and the guest's answer *)
  Definition offer_of (i : nat) (o : option (choice * Qc)) : option (offer * Qc) :=
    option_map (fun cx => ((sname i, ch_fid cx.1, (ch_g cx.1, ch_h cx.1)), cx.2)) o.
  Definition mask_entry (nid : nat) (o : option (choice * Qc)) : option (nat * nat) := option_map (fun cx => (nid, ch_bin cx.1)) o.

  Lemma host_node i p S G H nid hj o lim : hosts !! i = Some p -> node_hist U (hcfg i) p rep eg eh hj S -> host_best S G H (i, p) = Ok o ->
    (mi <= lim)%Qc ->
    exists infos bg fin, find_split_host1 (E := E) (c_par (hcfg i)) (c_valid (hcfg i)) (sname i) hj = Ok (infos, cand_sums infos) /\
      find_host_split (c_par gcfg) dec (genc i nid) G H (cand_sums infos) = Ok bg /\
      final_split (sname i) nid infos bg = Ok (fin, mask_entry nid o) /\
      offered dec gdec lim fin (offer_of i o).
  Proof.
    intros Hp NH Hb Hlim. pose proof (tr_host TR i p Hp) as PK.
    destruct (node_cands U (hcfg i) p PK rep eg eh S hj NH) as [EC OKC].
    unfold TreeSpec.host_best, propose in Hb. cbn [fst snd] in Hb. cbv zeta in Hb. cbn [ch_g ch_h] in Hb.
    set (sl := fun c : nat * nat => (rnd (sum_if (left_of p S c.1 c.2) eg U), rnd (sum_if (left_of p S c.1 c.2) eh U))).
    set (mk := fun fb : nat * nat => Choice (Some i) fb.1 fb.2 (sl fb).1 (sl fb).2).
    set (cl := cand_list (c_par (hcfg i)) (c_valid (hcfg i)) 0 hj) in *.
    destruct (mapR _ _) as [l|e] eqn:El in Hb; [|discriminate]. cbn [mbind res_bind] in Hb.
    destruct (mapR_tag _ mk _ _ El) as (xs & Exs & ->). rewrite <- EC in Exs, Hb. rewrite mapR_map in Exs. rewrite map_map in Hb.
    assert (AT : forall c, c ∈ cl -> dec (tg c.2.1) = Ok (sl c.1).1 /\ dec (th c.2.1) = Ok (sl c.1).2).
    { intros c Hc. destruct (OKC c Hc) as ((_ & L & LL & A1 & A2) & _ & M). pose proof (tr_leaf TR i p Hp).
      split; [exact (tr_dec TR _ _ _ A1 ltac:(lia))|exact (tr_dec TR _ _ _ A2 ltac:(lia))]. }
    destruct (mapR_inv _ _ _ Exs) as [Lx Dx].
    assert (XG : forall c, c ∈ cl -> no_zero lam H (sl c.1).2).
    { intros c Hc. apply elem_of_list_lookup in Hc as (j & Hj). destruct (Dx j c Hj) as (y & _ & Ey). now destruct (sgain_inv _ _ _ _ _ _ Ey). }
    assert (XS : xs = map (fun c => gain_of lam G H (sl c.1).1 (sl c.1).2) cl).
    { apply list_eq. intros j. rewrite map_lookup. destruct (cl !! j) as [c|] eqn:Ec.
      - destruct (Dx j c Ec) as (y & Hy & Ey). destruct (sgain_inv _ _ _ _ _ _ Ey) as [_ ->]. exact Hy.
      - cbn. apply lookup_ge_None. apply lookup_ge_None in Ec. lia. }
    assert (FB : first_best mi (combine (map (fun x => mk x.1) cl) xs) =
      option_map (fun ax => (mk ax.1.1, ax.2)) (first_best mi (map (fun c => (c, gain_of lam G H (sl c.1).1 (sl c.1).2)) cl))).
    { rewrite <- (first_best_map (fun c => mk c.1)). f_equal. rewrite XS. clear. induction cl as [|c cl IH]; cbn; [reflexivity|]. f_equal. exact IH. }
    rewrite FB in Hb. clear FB.
    destruct (host_pick_ok (C := C) (c_par gcfg) dec G H cl (fun c => sl c.1)) as (st & Est & Hst).
    { intros c Hc. destruct (AT c Hc). auto. }
    set (infos := map (fun c : nat * nat * (trip C * trip C) => SInfo (E := E) (sname i) (Some c.1.1) (Some c.1.2) (Some (tg c.2.1)) (Some (th c.2.1)) None) cl).
    assert (CS : cand_sums infos = map sums_of cl) by (unfold cand_sums, infos; now rewrite map_map).
    exists infos.
    assert (F1 : find_split_host1 (c_par (hcfg i)) (c_valid (hcfg i)) (sname i) hj = Ok (infos, cand_sums infos)).
    { unfold find_split_host1. rewrite host_features_ok; [reflexivity|]. rewrite (po_len _ _ _ PK). destruct NH. lia. }
    rewrite <- CS in Est. pose proof FLOAT_ZERO_pos as FP. rewrite zq_0 in FP.
    destruct (first_best mi (map _ cl)) as [[c x]|] eqn:Ef; cbn [option_map fst snd] in Hb.
    - destruct Hst as (ix & -> & Hix). destruct (rt x) as [y|e] eqn:Er; [|discriminate]. cbn [mbind res_bind] in Hb. injection Hb as <-.
      destruct (tr_gain TR i nid x y Er) as (en & Een & Edn).
      exists (Some ix, en), (SInfo (sname i) (Some c.1.1) None (Some (tg c.2.1)) (Some (th c.2.1)) (Some en)).
      split; [exact F1|]. split; [|split].
      + unfold find_host_split. rewrite Est. cbn [mbind res_bind fst snd]. rewrite Een. reflexivity.
      + unfold final_split. cbn [fst snd]. unfold list_index. rewrite (map_lookup _ cl ix : infos !! ix = _), Hix. cbn [option_map mbind res_bind si_site si_fid si_bid si_grad si_hess].
        rewrite decide_True by reflexivity. reflexivity.
      + assert (Hc : c ∈ cl) by (eapply elem_of_list_lookup_2; exact Hix). destruct (AT c Hc) as [A1 A2].
        cbn. auto 10.
    - subst st. destruct (rt _) as [y|e] eqn:Er in Hb; [|discriminate]. cbn [mbind res_bind] in Hb. injection Hb as <-.
      destruct (tr_gain TR i nid _ y Er) as (en & Een & Edn).
      exists (None, en), (SInfo (sname i) None None None None (Some en)).
      split; [exact F1|]. split; [|split].
      + unfold find_host_split. rewrite Est. cbn [mbind res_bind fst snd]. rewrite Een. reflexivity.
      + reflexivity.
      + cbn. exists y. split; [exact Edn|]. pose proof (tr_near TR _ _ Er). qlra.
  Qed.

  Lemma guest_best_gain S o : guest_best S = Ok o ->
    let gg := match o with Some (_, x) => x | None => (mi - FLOAT_ZERO)%Qc end in (mi <= gg + FLOAT_ZERO)%Qc /\ si_gain (to_si o) = Some gg.
  Proof.
    intros Hb. pose proof FLOAT_ZERO_pos as FP. rewrite zq_0 in FP. destruct o as [[c x]|]; cbn; (split; [|reflexivity]).
    - unfold TreeSpec.guest_best, propose in Hb. cbv zeta in Hb. destruct (mapR _ _) as [l|e] in Hb; [|discriminate]. cbn in Hb. injection Hb as Hb.
      apply first_best_gt in Hb. qlra.
    - qlra.
  Qed.

  (** The choice between guest and hosts. *)
  Lemma choose_node S G H o fins : 0 < nh -> best_split S G H = Ok o ->
    length fins = nh -> (forall i p o' fin lim, hosts !! i = Some p -> host_best S G H (i, p) = Ok o' -> fins !! i = Some fin ->
       (mi <= lim)%Qc -> offered dec gdec lim fin (offer_of i o')) ->
    exists g, guest_best S = Ok g /\ find_best_split dec gdec (to_si g) fins = Ok (to_si o).
  Proof.
    intros SOME Hb LF Hoff. unfold TreeSpec.best_split in Hb. destruct (guest_best S) as [g|e] eqn:Eg; [|discriminate]. cbn [mbind res_bind] in Hb.
    destruct (mapR _ _) as [hs|e] eqn:Ehs in Hb; [|discriminate]. cbn [mbind res_bind] in Hb. cbv zeta in Hb. injection Hb as <-.
    exists g. split; [reflexivity|]. destruct (guest_best_gain S g Eg) as [Gm Gg]. cbv zeta in Gm, Gg.
    set (gg := match g with Some (_, x) => x | None => (mi - FLOAT_ZERO)%Qc end) in *.
    destruct (mapR_inv _ _ _ Ehs) as [Lh Dh]. rewrite combine_length, seq_length, Nat.min_id in Lh.
    set (offers := map (fun io => offer_of io.1 io.2) (combine (seq 0 (length hs)) hs)).
    assert (HO : forall i o', hs !! i = Some o' -> exists p, hosts !! i = Some p /\ host_best S G H (i, p) = Ok o').
    { intros i o' Ho. destruct (hosts !! i) as [p|] eqn:Ep.
      - exists p. split; [reflexivity|]. destruct (Dh i (i, p)) as (o2 & Ho2 & E2); [exact (combine_seq_at hosts 0 i p Ep)|]. congruence.
      - apply lookup_ge_None in Ep. apply lookup_lt_Some in Ho. lia. }
    rewrite (find_best_split_ok dec gdec (to_si g) gg fins offers).
    - f_equal. assert (OO : omap id offers = map (fun cx => ((own_site (ch_own cx.1), ch_fid cx.1, (ch_g cx.1, ch_h cx.1)), cx.2)) (omap id hs)).
      { unfold offers. assert (W : forall i o', hs !! i = Some o' -> match o' with Some (c, x) => ch_own c = Some (0 + i) | None => True end).
        { intros i [[c x]|] Ho; [|exact Logic.I]. destruct (HO i _ Ho) as (p & _ & E2). unfold TreeSpec.host_best in E2.
          destruct (propose _ _ _ _ _ _ _ _ _ _) as [[[c' x']|]|e] eqn:Epr in E2; cbn [mbind res_bind fst snd] in E2; [| |discriminate].
          - destruct (rt x'); [|discriminate]. cbn in E2. injection E2 as <- <-. exact (propose_own _ _ _ _ _ _ _ _ _ Epr).
          - destruct (rt _) in E2; discriminate. }
        revert W. clear. generalize 0. induction hs as [|o' hs IH]; intros k W; [reflexivity|].
        cbn [length seq combine map omap list_omap fst snd]. specialize (IH (Datatypes.S k)).
        rewrite IH by (intros i o2 Ho; specialize (W (Datatypes.S i) o2 Ho); destruct o2 as [[c x]|]; [|exact Logic.I]; rewrite W; f_equal; lia).
        destruct o' as [[c x]|]; cbn; [|reflexivity]. specialize (W 0 _ eq_refl). cbn in W. rewrite Nat.add_0_r in W. now rewrite W. }
      rewrite OO, (first_best_map (fun c => (own_site (ch_own c), ch_fid c, (ch_g c, ch_h c)))).
      destruct (first_best _ (omap id hs)) as [[c x]|] eqn:Ef; cbn [option_map]; [|reflexivity].
      unfold of_offer, to_si. cbn [fst snd]. apply first_best_elem in Ef. apply elem_of_list_omap in Ef as (o' & Ho' & Eo). cbn in Eo. subst o'.
      apply elem_of_list_lookup in Ho' as (i & Hi). destruct (HO i _ Hi) as (p & _ & E2). unfold TreeSpec.host_best in E2.
      destruct (propose _ _ _ _ _ _ _ _ _ _) as [[[c' x']|]|e] eqn:Epr in E2; cbn [mbind res_bind fst snd] in E2; [| |discriminate].
      + destruct (rt x'); [|discriminate]. cbn in E2. injection E2 as <- <-. rewrite (propose_own _ _ _ _ _ _ _ _ _ Epr). reflexivity.
      + destruct (rt _) in E2; discriminate.
    - destruct fins; [|discriminate]. cbn in LF. lia.
    - exact Gg.
    - apply Forall2_same_length_lookup. split.
      + unfold offers. rewrite map_length, combine_length, seq_length, Nat.min_id, LF, Lh. symmetry. apply (tr_hosts TR).
      + intros i fin of Hf Ho. unfold offers in Ho. rewrite map_lookup in Ho.
        destruct (combine _ hs !! i) as [[i' o']|] eqn:Ec in Ho; [|discriminate]. cbn in Ho. injection Ho as <-.
        apply combine_lookup_inv in Ec as [E1 E2]. cbn [fst snd] in *. apply lookup_seq in E1 as [-> _]. destruct (HO i o' E2) as (p & Hp & Eb).
        exact (Hoff i p o' fin _ Hp Eb Hf Gm).
  Qed.

  (** ** The batch *)
  Record info : Type := Info { i_id : nat; i_S : K -> bool; i_G : Qc; i_H : Qc }.
  Definition qnode (nd : node) (x : info) : Prop :=
    exists w, sweight lam (i_G x) (i_H x) = Ok w /\ nd = Node (i_id x) GuestSite None w false (i_G x) (i_H x) None None.
  Definition idS (x : info) : nat * (K -> bool) := (i_id x, i_S x).
  Definition split_at (x : info) : res (option (choice * Qc)) := best_split (i_S x) (i_G x) (i_H x).

  Lemma qnode_ids cur infs : Forall2 qnode cur infs -> map n_id cur = map i_id infs.
  Proof. induction 1 as [|nd x cur infs (w & _ & ->) _ IH]; [reflexivity|]. cbn. now f_equal. Qed.

  Lemma add_masks_get (ms : list (option (nat * nat))) : forall (m0 : dict nat mval),
    (NoDup m0.*1 -> NoDup (fold_left add_mask ms m0).*1) /\
    (forall id, (forall b, Some (id, b) ∉ ms) -> dict_get id (fold_left add_mask ms m0) = dict_get id m0).
  Proof.
    induction ms as [|o ms IH]; intros m0; [split; auto|]. cbn [fold_left]. destruct (IH (add_mask m0 o)) as [A B]. split.
    - intros ND. apply A. destruct o as [[nid b]|]; [|exact ND]. now apply dict_set_NoDup.
    - intros id Hn. rewrite B by (intros b Hb; apply (Hn b); now right). destruct o as [[nid b]|]; [|reflexivity].
      cbn. apply dict_get_set_ne. intros ->. apply (Hn b). left.
  Qed.
  Lemma add_masks_set (ms : list (option (nat * nat))) id b : forall (m0 : dict nat mval),
    Some (id, b) ∈ ms -> (forall b', Some (id, b') ∈ ms -> b' = b) -> dict_get id (fold_left add_mask ms m0) = Some (MBin b).
  Proof.
    induction ms as [|o ms IH]; intros m0 Hin Hu; [inversion Hin|]. cbn [fold_left].
    destruct (decide (Some (id, b) ∈ ms)) as [H|H].
    - apply IH; [exact H|]. intros b' Hb. apply Hu. now right.
    - apply elem_of_cons in Hin as [<-|Hin]; [|contradiction]. destruct (add_masks_get ms (add_mask m0 (Some (id, b)))) as [_ B].
      rewrite B; [cbn; apply dict_get_set_eq|]. intros b' Hb. assert (b' = b) as -> by (apply Hu; now right). contradiction.
  Qed.

  Lemma batch_ok {R S : Type} pos (q infs : list info) (cur : list node) (os : list (option (choice * Qc))) dbn dbns : 0 < nh ->
    pos_ok U pos (map idS q) -> Forall2 qnode cur infs -> (forall x, x ∈ infs -> x ∈ q) -> NoDup (map i_id infs) -> infs <> [] ->
    Forall2 (fun x o => split_at x = Ok o) infs os ->
    with_positions (c_data gcfg) pos = Ok dbn -> (forall i, i < nh -> with_positions (c_data (hcfg i)) pos = Ok (dbns i)) ->
    forall acc (masks : nat -> dict nat mval), (forall i, i < nh -> NoDup (masks i).*1) -> exists masks' : nat -> dict nat mval,
      @runs msg R S nh _ _ (guest_batch nh gcfg gh dec gdec genc dbn acc cur)
        (fun i => host_batch O (sname i) (hcfg i) ghc (dbns i) (masks i) (map n_id cur)) (acc ++ map to_si os) masks' /\
      (forall i, i < nh -> NoDup (masks' i).*1) /\
      (forall i id, i < nh -> id ∉ map i_id infs -> dict_get id (masks' i) = dict_get id (masks i)) /\
      (forall j x c y i, i < nh -> infs !! j = Some x -> os !! j = Some (Some (c, y)) -> ch_own c = Some i ->
         dict_get (i_id x) (masks' i) = Some (MBin (ch_bin c))).
  Proof.
    intros SOME PO QN Sub ND NE BS Edbn Edbns acc masks NDm.
    pose proof (qnode_ids _ _ QN) as IDS.
    assert (KEYS : (map idS infs).*1 = map i_id infs) by (rewrite <- list_fmap_compose; reflexivity).
    assert (SUB' : forall x, x ∈ map idS infs -> x ∈ map idS q).
    { intros x Hx. apply elem_of_list_fmap in Hx as (y & -> & Hy). apply (elem_of_list_fmap_1 idS). auto. }
    assert (NE' : map idS infs <> []) by (destruct infs; [easy|discriminate]).
    assert (SS : map snd (map idS infs) = map i_S infs) by (rewrite map_map; reflexivity).
    destruct (tr_gh TR) as (Wgh & Kgh & Vgh). destruct (tr_ghc TR) as (Wghc & Kghc & Vghc).
    (* the guest's histograms *)
    destruct (node_hists U NDU gcfg guest (tr_guest TR) qops (fun c _ q => c = q) qops_laws vg vh gh Wgh (fun k Hk => proj2 (Kgh k) Hk)
      ltac:(intros k c Hc; rewrite (Vgh k c Hc); auto) pos (map idS q) (map idS infs) dbn PO SUB' ltac:(now rewrite KEYS) NE' Edbn) as (hg & Ehg & Fhg).
    rewrite KEYS, <- IDS in Ehg. rewrite SS in Fhg.
    (* the hosts' histograms *)
    assert (HH : forall i, i < nh -> exists p h, hosts !! i = Some p /\
      get_histograms O (dbns i) ghc (c_points (hcfg i)) (c_zero (hcfg i)) (Some (c_valid (hcfg i))) (node_map_of (map n_id cur)) = Ok h /\
      Forall2 (node_hist U (hcfg i) p rep eg eh) h (map i_S infs)).
    { intros i Hi. destruct (lookup_lt_is_Some_2 hosts i) as [p Hp]; [rewrite (tr_hosts TR); exact Hi|]. exists p.
      destruct (node_hists U NDU (hcfg i) p (tr_host TR i p Hp) O rep NL eg eh ghc Wghc (fun k Hk => proj2 (Kghc k) Hk) Vghc
        pos (map idS q) (map idS infs) (dbns i) PO SUB' ltac:(now rewrite KEYS) NE' (Edbns i Hi)) as (h & Eh & Fh).
      exists h. rewrite KEYS, <- IDS in Eh. rewrite SS in Fh. auto. }
    pose proof (Forall2_length _ _ _ BS) as LBS. pose proof (Forall2_length _ _ _ QN) as LQN.
    (* what the guest finds *)
    assert (GB : exists gs, Forall2 (fun x g => guest_best (i_S x) = Ok g) infs gs).
    { clear -BS. induction BS as [|x o infs os Hx _ (gs & IH)]; [exists []; constructor|].
      unfold split_at, TreeSpec.best_split in Hx. destruct (guest_best (i_S x)) as [g|e] eqn:Eg; [|discriminate]. exists (g :: gs). constructor; auto. }
    destruct GB as (gs & GB). pose proof (Forall2_length _ _ _ GB) as LGB. pose proof (Forall2_length _ _ _ Fhg) as LFh. rewrite map_length in LFh.
    assert (EG : find_split (c_par gcfg) (c_valid gcfg) hg = Ok (map to_si gs)).
    { unfold find_split. apply mapR_pointwise; [rewrite map_length; lia|]. intros j hj s Hj Hs. rewrite map_lookup in Hs.
      destruct (gs !! j) as [g|] eqn:Eg; [|discriminate]. cbn in Hs. injection Hs as <-.
      destruct (Forall2_lookup_l _ _ _ _ _ Fhg Hj) as (S0 & HS0 & NH). rewrite map_lookup in HS0.
      destruct (infs !! j) as [x|] eqn:Ex; [|discriminate]. cbn in HS0. injection HS0 as <-.
      destruct (Forall2_lookup_l _ _ _ _ _ GB Ex) as (g' & Hg' & Eg'). rewrite Eg in Hg'. injection Hg' as <-. exact (guest_node _ _ _ NH Eg'). }
    (* what each host does, per node *)
    assert (HN : forall i, i < nh -> exists h (zs : list (list (splitinfo C E) * (option nat * E) * splitinfo C E * option (nat * nat))),
      get_histograms O (dbns i) ghc (c_points (hcfg i)) (c_zero (hcfg i)) (Some (c_valid (hcfg i))) (node_map_of (map n_id cur)) = Ok h /\
      length zs = length infs /\ length h = length infs /\
      forall j x z, infs !! j = Some x -> zs !! j = Some z -> exists p o hj, hosts !! i = Some p /\ h !! j = Some hj /\
        host_best (i_S x) (i_G x) (i_H x) (i, p) = Ok o /\
        find_split_host1 (c_par (hcfg i)) (c_valid (hcfg i)) (sname i) hj = Ok (z.1.1.1, cand_sums z.1.1.1) /\
        find_host_split (c_par gcfg) dec (genc i (i_id x)) (i_G x) (i_H x) (cand_sums z.1.1.1) = Ok z.1.1.2 /\
        final_split (sname i) (i_id x) z.1.1.1 z.1.1.2 = Ok (z.1.2, z.2) /\ z.2 = mask_entry (i_id x) o /\
        forall lim, (mi <= lim)%Qc -> offered dec gdec lim z.1.2 (offer_of i o)).
    { intros i Hi. destruct (HH i Hi) as (p & h & Hp & Eh & Fh). exists h.
      destruct (list_choice (fun j x (z : list (splitinfo C E) * (option nat * E) * splitinfo C E * option (nat * nat)) =>
        exists p o hj, hosts !! i = Some p /\ h !! j = Some hj /\
        host_best (i_S x) (i_G x) (i_H x) (i, p) = Ok o /\
        find_split_host1 (c_par (hcfg i)) (c_valid (hcfg i)) (sname i) hj = Ok (z.1.1.1, cand_sums z.1.1.1) /\
        find_host_split (c_par gcfg) dec (genc i (i_id x)) (i_G x) (i_H x) (cand_sums z.1.1.1) = Ok z.1.1.2 /\
        final_split (sname i) (i_id x) z.1.1.1 z.1.1.2 = Ok (z.1.2, z.2) /\ z.2 = mask_entry (i_id x) o /\
        forall lim, (mi <= lim)%Qc -> offered dec gdec lim z.1.2 (offer_of i o)) infs) as (zs & Lz & Dz).
      { intros j x Hx. destruct (Forall2_lookup_l _ _ _ _ _ BS Hx) as (o & Ho & Eo).
        unfold split_at, TreeSpec.best_split in Eo. destruct (guest_best _) as [g|e] in Eo; [|discriminate]. cbn [mbind res_bind] in Eo.
        destruct (mapR _ _) as [hs|e] eqn:Ehs in Eo; [|discriminate]. destruct (mapR_inv _ _ _ Ehs) as [_ Dh].
        destruct (Dh i (i, p)) as (oi & _ & Eoi); [exact (combine_seq_at hosts 0 i p Hp)|].
        destruct (Forall2_lookup_r _ _ _ j (i_S x) Fh) as (hj & Hj & NH); [rewrite map_lookup, Hx; reflexivity|].
        destruct (host_node i p (i_S x) (i_G x) (i_H x) (i_id x) hj oi mi Hp NH Eoi (Qcle_refl _)) as (infos & bg & fin & A1 & A2 & A3 & _).
        exists (infos, bg, fin, mask_entry (i_id x) oi), p, oi, hj. cbn [fst snd]. repeat (split; [assumption || reflexivity|]).
        intros lim Hl. destruct (host_node i p (i_S x) (i_G x) (i_H x) (i_id x) hj oi lim Hp NH Eoi Hl) as (infos' & bg' & fin' & B1 & B2 & B3 & B4).
        assert (infos' = infos) as -> by congruence. assert (bg' = bg) as -> by congruence. assert (fin' = fin) as -> by congruence. exact B4. }
      exists zs. pose proof (Forall2_length _ _ _ Fh) as LF. rewrite map_length in LF. auto. }
    destruct (fin_choice nh _ SOME HN) as (hf & HN2). clear HN HH.
    destruct (fin_choice nh _ SOME HN2) as (zf & HN).
    clear HN2. cbv beta in HN.
    set (cs := fun i => map (fun z => (z.1.1.1, cand_sums z.1.1.1)) (zf i)).
    set (bst := fun i => map (fun z => z.1.1.2) (zf i)).
    set (fs := fun i => map (fun z => (z.1.2, z.2)) (zf i)).
    exists (fun i => fold_left add_mask (map snd (fs i)) (masks i)). split; [|split; [|split]].
    - unfold guest_batch, host_batch.
      eapply runs_glift; [exact Ehg|]. eapply runs_glift; [exact EG|].
      eapply (runs_hlift nh _ hf); [intros i Hi; apply (HN i Hi)|].
      eapply (runs_hlift nh _ cs).
      { intros i Hi. destruct (HN i Hi) as (_ & Lz & Lh & D). unfold find_split_host. apply mapR_pointwise; [unfold cs; rewrite map_length; lia|].
        intros j hj c Hj Hc. unfold cs in Hc. rewrite map_lookup in Hc. destruct (zf i !! j) as [z|] eqn:Ez; [|discriminate]. cbn in Hc. injection Hc as <-.
        destruct (lookup_lt_is_Some_2 infs j) as [x Hx]; [apply lookup_lt_Some in Ez; lia|].
        destruct (D j x z Hx Ez) as (p & o & hj' & _ & Hj' & _ & A1 & _). congruence. }
      apply (runs_gather_as nh as_cand (fun i => MCand (map snd (cs i))) (fun i => map snd (cs i))); [reflexivity|].
      apply (runs_scatter_as nh as_best _ (fun i => MBest (bst i)) bst).
      { intros i Hi. unfold list_index. rewrite map_lookup, lookup_seq_lt by exact Hi. cbn [option_map mbind res_bind Nat.add].
        replace (best_for_host gcfg dec genc cur i (map snd (cs i))) with (Ok (bst i)); [reflexivity|]. symmetry.
        destruct (HN i Hi) as (_ & Lz & Lh & D). unfold best_for_host. apply mapR_pointwise.
        - unfold cs, bst. rewrite combine_length, !map_length. lia.
        - intros j nc b Hj Hb. apply combine_lookup_inv in Hj as [H1 H2]. unfold cs in H2. unfold bst in Hb. rewrite map_map, map_lookup in H2. rewrite map_lookup in Hb.
          destruct (zf i !! j) as [z|] eqn:Ez; [|discriminate]. cbn in H2, Hb. injection H2 as H2. injection Hb as <-. rewrite <- H2.
          destruct (Forall2_lookup_l _ _ _ _ _ QN H1) as (x & Hx & (w & _ & Enc)). rewrite Enc. cbn [n_id n_grad n_hess].
          destruct (D j x z Hx Ez) as (p & o & hj' & _ & _ & _ & _ & A2 & _). exact A2. }
      { reflexivity. }
      eapply (runs_hlift nh _ fs).
      { intros i Hi. destruct (HN i Hi) as (_ & Lz & Lh & D). unfold final_splits. apply mapR_pointwise.
        - unfold cs, fs. rewrite combine_length, seq_length, !map_length. lia.
        - intros j ic f Hj Hf. apply combine_lookup_inv in Hj as [H1 H2]. unfold cs in H2. unfold fs in Hf. rewrite map_map, map_lookup in H2. rewrite map_lookup in Hf.
          destruct (zf i !! j) as [z|] eqn:Ez; [|discriminate]. cbn in H2, Hf. injection H2 as H2. injection Hf as <-. rewrite <- H2.
          apply lookup_seq in H1 as [-> _]. cbn [Nat.add]. destruct (lookup_lt_is_Some_2 infs j) as [x Hx]; [apply lookup_lt_Some in Ez; lia|].
          unfold list_index. unfold bst. rewrite IDS, !map_lookup, Ez, Hx. cbn [option_map mbind res_bind].
          destruct (D j x z Hx Ez) as (p & o & hj' & _ & _ & _ & _ & _ & A3 & _). exact A3. }
      apply (runs_gather_as nh as_final (fun i => MFinal (map fst (fs i))) (fun i => map fst (fs i))); [reflexivity|].
      eapply runs_glift; [|apply runs_ret].
      unfold merge_splitinfo.
      set (fins := fun j => map (fun i => match zf i !! j with Some z => z.1.2 | None => SInfo GuestSite None None None None None end) (seq 0 nh)).
      assert (ROWS : mapR (fun ig => row ← mapR (fun hl => list_index hl ig.1) (map (fun i => map fst (fs i)) (seq 0 nh)); Ok (ig.2, row))
        (combine (seq 0 (length (map to_si gs))) (map to_si gs)) = Ok (map (fun ig => (ig.2, fins ig.1)) (combine (seq 0 (length (map to_si gs))) (map to_si gs)))).
      { apply mapR_ok_fn. intros [j g] Hjg. apply combine_seq_elem in Hjg as [_ Hjg]. rewrite Nat.sub_0_r in Hjg.
        assert (Lj : j < length infs) by (apply lookup_lt_Some in Hjg; rewrite map_length in Hjg; lia). cbn [fst snd].
        rewrite mapR_map. rewrite (mapR_ok_fn _ (fun i => match zf i !! j with Some z => z.1.2 | None => SInfo GuestSite None None None None None end)); [reflexivity|].
        intros i Hi. apply elem_of_list_In, in_seq in Hi. destruct (HN i ltac:(lia)) as (_ & Lz & _). unfold list_index, fs. rewrite map_map, map_lookup.
        destruct (lookup_lt_is_Some_2 (zf i) j) as [z Hz]; [lia|]. rewrite Hz. reflexivity. }
      rewrite ROWS. cbn [mbind res_bind]. rewrite mapR_map. cbn [fst snd]. apply mapR_pointwise; [rewrite combine_length, seq_length, !map_length; lia|].
      intros j ig s Hj Hs. apply combine_lookup_inv in Hj as [H1 H2]. apply lookup_seq in H1 as [H1 _]. rewrite map_lookup in H2, Hs.
      destruct (gs !! j) as [g|] eqn:Eg; [|discriminate]. destruct (os !! j) as [o|] eqn:Eo; [|discriminate]. cbn in H2, Hs. injection H2 as H2. injection Hs as <-.
      rewrite H1, <- H2. cbn [Nat.add].
      destruct (lookup_lt_is_Some_2 infs j) as [x Hx]; [apply lookup_lt_Some in Eg; lia|].
      destruct (Forall2_lookup_l _ _ _ _ _ BS Hx) as (o' & Ho' & Eo'). rewrite Eo in Ho'. injection Ho' as <-.
      destruct (Forall2_lookup_l _ _ _ _ _ GB Hx) as (g' & Hg' & Eg'). rewrite Eg in Hg'. injection Hg' as <-.
      destruct (choose_node (i_S x) (i_G x) (i_H x) o (fins j) SOME Eo') as (g' & Eg2 & Ef).
      + unfold fins. rewrite map_length, seq_length. reflexivity.
      + intros i p o2 fin lim Hp Eb Hf Hl. unfold fins in Hf. rewrite map_lookup in Hf.
        assert (Li : i < nh) by (rewrite <- (tr_hosts TR); eapply lookup_lt_Some; exact Hp). rewrite lookup_seq_lt in Hf by exact Li. cbn in Hf. injection Hf as <-.
        destruct (HN i Li) as (_ & Lz & _ & D). destruct (lookup_lt_is_Some_2 (zf i) j) as [z Hz]; [apply lookup_lt_Some in Hx; lia|]. rewrite Hz.
        destruct (D j x z Hx Hz) as (p' & o3 & hj & Hp' & _ & Eb' & _ & _ & _ & _ & Off). assert (p' = p) as -> by congruence. assert (o3 = o2) as -> by congruence. exact (Off lim Hl).
      + congruence.
    - intros i Hi. apply add_masks_get. exact (NDm i Hi).
    - intros i id Hi Hn. apply add_masks_get. intros b Hb. apply Hn. destruct (HN i Hi) as (_ & Lz & _ & D).
      unfold fs in Hb. rewrite map_map in Hb. apply elem_of_list_lookup in Hb as (j & Hj). rewrite map_lookup in Hj.
      destruct (zf i !! j) as [z|] eqn:Ez; [|discriminate]. cbn in Hj. injection Hj as Hj.
      destruct (lookup_lt_is_Some_2 infs j) as [x Hx]; [apply lookup_lt_Some in Ez; lia|].
      destruct (D j x z Hx Ez) as (_ & o & _ & _ & _ & _ & _ & _ & _ & Em & _). rewrite Em in Hj. destruct o as [[c y]|]; [|discriminate]. cbn in Hj. injection Hj as <- _.
      apply (elem_of_list_fmap_1 i_id). eapply elem_of_list_lookup_2; exact Hx.
    - intros j x c y i Hi Hx Ho Hc. destruct (HN i Hi) as (_ & Lz & _ & D).
      assert (MS : forall j' id b, map snd (fs i) !! j' = Some (Some (id, b)) -> exists x' o', infs !! j' = Some x' /\ id = i_id x' /\
        (exists p, hosts !! i = Some p /\ host_best (i_S x') (i_G x') (i_H x') (i, p) = Ok o') /\ mask_entry (i_id x') o' = Some (id, b)).
      { intros j' id b Hj. unfold fs in Hj. rewrite map_map, map_lookup in Hj. destruct (zf i !! j') as [z|] eqn:Ez; [|discriminate]. cbn in Hj. injection Hj as Hj.
        destruct (lookup_lt_is_Some_2 infs j') as [x' Hx']; [apply lookup_lt_Some in Ez; lia|].
        destruct (D j' x' z Hx' Ez) as (p & o & _ & Hp & _ & Eb & _ & _ & _ & Em & _). exists x', o. rewrite <- Em. split; [exact Hx'|].
        split; [|split; [eauto|exact Hj]]. rewrite Em in Hj. destruct o as [[c' y']|]; [|discriminate]. cbn in Hj. congruence. }
      (* the proposal of host i for this node is c *)
      destruct (lookup_lt_is_Some_2 hosts i) as [p Hp]; [rewrite (tr_hosts TR); exact Hi|].
      assert (HB : host_best (i_S x) (i_G x) (i_H x) (i, p) = Ok (Some (c, y))).
      { destruct (Forall2_lookup_l _ _ _ _ _ BS Hx) as (o' & Ho' & Eo). rewrite Ho in Ho'. injection Ho' as <-.
        unfold split_at, TreeSpec.best_split in Eo. destruct (guest_best _) as [g|e] eqn:Eg in Eo; [|discriminate]. cbn [mbind res_bind] in Eo.
        destruct (mapR _ _) as [hs|e] eqn:Ehs in Eo; [|discriminate]. cbn [mbind res_bind] in Eo. cbv zeta in Eo. injection Eo as Eo.
        destruct (mapR_inv _ _ _ Ehs) as [Lh Dh]. destruct (first_best _ (omap id hs)) as [[c' y']|] eqn:Ef.
        - injection Eo as -> ->. apply first_best_elem, elem_of_list_omap in Ef as (o' & Ho' & Eo). cbn in Eo. subst o'.
          apply elem_of_list_lookup in Ho' as (i' & Hi'). destruct (lookup_lt_is_Some_2 hosts i') as [p' Hp'].
          { apply lookup_lt_Some in Hi'. rewrite combine_length, seq_length, Nat.min_id in Lh. lia. }
          destruct (Dh i' (i', p')) as (o' & Ho' & Eo'); [exact (combine_seq_at hosts 0 i' p' Hp')|]. rewrite Hi' in Ho'. injection Ho' as <-.
          assert (i' = i) as ->.
          { unfold TreeSpec.host_best in Eo'. destruct (propose _ _ _ _ _ _ _ _ _ _) as [[[c' x']|]|e] eqn:Epr in Eo'; cbn [mbind res_bind fst snd] in Eo'; [| |discriminate].
            - destruct (rt x'); [|discriminate]. cbn in Eo'. injection Eo' as <- <-. pose proof (propose_own _ _ _ _ _ _ _ _ _ Epr) as Po. cbn [fst] in Po. congruence.
            - destruct (rt _) in Eo'; discriminate. }
          congruence.
        - subst g. unfold TreeSpec.guest_best in Eg. pose proof (propose_own _ _ _ _ _ _ _ _ _ Eg). congruence. }
      apply add_masks_set.
      + destruct (lookup_lt_is_Some_2 (zf i) j) as [z Hz]; [apply lookup_lt_Some in Hx; lia|].
        destruct (D j x z Hx Hz) as (p' & o' & _ & Hp' & _ & Eb & _ & _ & _ & Em & _). assert (p' = p) as -> by congruence.
        assert (o' = Some (c, y)) as -> by congruence. cbn in Em.
        apply elem_of_list_lookup. exists j. unfold fs. rewrite map_map, map_lookup, Hz. cbn. now rewrite Em.
      + intros b' Hb'. apply elem_of_list_lookup in Hb' as (j' & Hj'). destruct (MS j' _ _ Hj') as (x' & o' & Hx' & Eid & (p' & Hp' & Eb) & Em).
        assert (j' = j) as ->.
        { assert (H1 : map i_id infs !! j' = Some (i_id x')) by (rewrite map_lookup, Hx'; reflexivity).
          assert (H2 : map i_id infs !! j = Some (i_id x)) by (rewrite map_lookup, Hx; reflexivity).
          rewrite <- Eid in H1. exact (NoDup_lookup _ _ _ _ ND H1 H2). }
        assert (x' = x) as -> by congruence. assert (p' = p) as -> by congruence. assert (o' = Some (c, y)) as -> by congruence. cbn in Em. congruence.
  Qed.
End Train.
Global Arguments tr_hosts {K EqDecision0 C E U nh gcfg hcfg guest hosts sname gh ghc vg vh eg eh rep dec gdec genc rnd rt} _.
Global Arguments tr_guest {K EqDecision0 C E U nh gcfg hcfg guest hosts sname gh ghc vg vh eg eh rep dec gdec genc rnd rt} _.
Global Arguments tr_host {K EqDecision0 C E U nh gcfg hcfg guest hosts sname gh ghc vg vh eg eh rep dec gdec genc rnd rt} _ i p _.
Global Arguments tr_gleaf {K EqDecision0 C E U nh gcfg hcfg guest hosts sname gh ghc vg vh eg eh rep dec gdec genc rnd rt} _.
Global Arguments tr_leaf {K EqDecision0 C E U nh gcfg hcfg guest hosts sname gh ghc vg vh eg eh rep dec gdec genc rnd rt} _ i p _.
Global Arguments tr_names {K EqDecision0 C E U nh gcfg hcfg guest hosts sname gh ghc vg vh eg eh rep dec gdec genc rnd rt} _ i _ _.
Global Arguments tr_inj {K EqDecision0 C E U nh gcfg hcfg guest hosts sname gh ghc vg vh eg eh rep dec gdec genc rnd rt} _ i j _ _ _.
Global Arguments tr_step {K EqDecision0 C E U nh gcfg hcfg guest hosts sname gh ghc vg vh eg eh rep dec gdec genc rnd rt} _.
Global Arguments tr_depth {K EqDecision0 C E U nh gcfg hcfg guest hosts sname gh ghc vg vh eg eh rep dec gdec genc rnd rt} _ i _.
Global Arguments tr_size {K EqDecision0 C E U nh gcfg hcfg guest hosts sname gh ghc vg vh eg eh rep dec gdec genc rnd rt} _.
Global Arguments tr_gh {K EqDecision0 C E U nh gcfg hcfg guest hosts sname gh ghc vg vh eg eh rep dec gdec genc rnd rt} _.
Global Arguments tr_ghc {K EqDecision0 C E U nh gcfg hcfg guest hosts sname gh ghc vg vh eg eh rep dec gdec genc rnd rt} _.
Global Arguments tr_dec {K EqDecision0 C E U nh gcfg hcfg guest hosts sname gh ghc vg vh eg eh rep dec gdec genc rnd rt} _ c L q _ _.
Global Arguments tr_gain {K EqDecision0 C E U nh gcfg hcfg guest hosts sname gh ghc vg vh eg eh rep dec gdec genc rnd rt} _ i nid x y _.
Global Arguments tr_near {K EqDecision0 C E U nh gcfg hcfg guest hosts sname gh ghc vg vh eg eh rep dec gdec genc rnd rt} _ x y _.
