(** Growing a tree in doubles: the levels. *)
From Verif Require Import HistPaillier.
From Verif Require Export FloatTreeProofs.
From Verif Require Import FloatSplitProofs.
Local Open Scope nat_scope.

(** ** Moving the rows on *)
Lemma redispatch_rel {K} `{EqDecision K} zero (st : @gstate K) (dbn : dtable K (dict nat nat * (Z * nat))) :
  dt_wf dbn -> (forall w0, t_weights st = Some w0 -> dt_wf w0) ->
  (forall k v, tget dbn k = Some v -> exists x, guest_dispatch (t_nodes st) (t_mask st) zero v = Ok x /\ is_host_disp x = false) ->
  exists th r2 w', redispatch_local zero st dbn = Ok (th, r2, GState (t_nodes st) (t_mask st) (t_num st) (Some w') (t_imp st)) /\ dt_wf r2 /\ dt_wf w' /\
    (forall k x, tget r2 k = Some x <-> exists v, tget dbn k = Some v /\ guest_dispatch (t_nodes st) (t_mask st) zero v = Ok x /\ is_leaf_disp x = false) /\
    (forall k x, tget w' k = Some x <-> (match t_weights st with Some w0 => tget w0 k | None => None end = Some x) \/
       (match t_weights st with Some w0 => tget w0 k | None => None end = None /\ exists v, tget dbn k = Some v /\ guest_dispatch (t_nodes st) (t_mask st) zero v = Ok (DLeaf x))).
Proof.
  intros Wd Ww GD. unfold redispatch_local.
  destruct (dt_mapValues_rel (guest_dispatch (t_nodes st) (t_mask st) zero) (fun k v x => guest_dispatch (t_nodes st) (t_mask st) zero v = Ok x /\ is_host_disp x = false) dbn Wd) as (r & Er & Wr & _ & Gr).
  { intros k v Hk. destruct (GD k v Hk) as (x & E & Hx). eauto. }
  rewrite Er. cbn [mbind res_bind].
  assert (RR : forall k x, tget r k = Some x <-> exists v, tget dbn k = Some v /\ guest_dispatch (t_nodes st) (t_mask st) zero v = Ok x).
  { intros k x. specialize (Gr k). split.
    - intros Hx. rewrite Hx in Gr. destruct (tget dbn k) as [v|]; [|contradiction]. exists v. split; [reflexivity|apply Gr].
    - intros (v & Hv & Ex). rewrite Hv in Gr. destruct (tget r k) as [x'|]; [|contradiction]. destruct Gr as [Ex' _]. congruence. }
  assert (HF : forall k x, tget r k = Some x -> is_host_disp x = false).
  { intros k x Hx. specialize (Gr k). rewrite Hx in Gr. destruct (tget dbn k); [apply Gr|contradiction]. }
  destruct (dt_filter_rel (fun _ v => is_host_disp v) r Wr) as (th & Eth & Wth & Gth). rewrite Eth. cbn [mbind res_bind].
  destruct (dt_subtract_rel r th Wr) as (r1 & E1 & W1 & G1). rewrite E1. cbn [mbind res_bind].
  assert (R1 : forall k, tget r1 k = tget r k).
  { intros k. rewrite G1, Gth. destruct (tget r k) as [x|] eqn:Ex; [|reflexivity]. now rewrite (HF k x Ex). }
  destruct (dt_filter_rel (fun _ v => is_leaf_disp v) r1 W1) as (lf & Elf & Wlf & Glf). rewrite Elf. cbn [mbind res_bind].
  destruct (dt_mapValues_rel leaf_value_of (fun _ v w => v = DLeaf w) lf Wlf) as (lw & Elw & Wlw & _ & Glw).
  { intros k v Hk. rewrite Glf in Hk. destruct (tget r1 k) as [v'|]; [|discriminate]. destruct (is_leaf_disp v') eqn:Ev; [|discriminate]. injection Hk as <-.
    destruct v' as [w0|? ?|? ? ? ? ? ?]; try discriminate. exists w0. auto. }
  rewrite Elw. cbn [mbind res_bind].
  assert (LW : forall k v, tget lw k = Some v <-> tget r k = Some (DLeaf v)).
  { intros k v. specialize (Glw k). rewrite Glf, R1 in Glw. destruct (tget r k) as [v'|] eqn:Erk.
    - destruct v' as [w0|? ?|? ? ? ? ? ?]; cbn in Glw.
      + destruct (tget lw k) as [w1|]; [|contradiction]. injection Glw as <-. split; congruence.
      + destruct (tget lw k); [contradiction|]. split; discriminate.
      + destruct (tget lw k); [contradiction|]. split; discriminate.
    - destruct (tget lw k); [contradiction|]. split; discriminate. }
  assert (WX : exists w', match t_weights st with Some w0 => dt_union (fun a _ => a) w0 lw | None => Ok lw end = Ok w' /\ dt_wf w' /\
    forall k, tget w' k = match (match t_weights st with Some w0 => tget w0 k | None => None end) with Some v => Some v | None => tget lw k end).
  { destruct (t_weights st) as [w0|]; [|exists lw; auto]. destruct (dt_union_rel w0 lw (Ww w0 eq_refl) Wlw) as (w' & A & B & D). exists w'. auto. }
  destruct WX as (w' & Ew & Ww' & Gw). rewrite Ew. cbn [mbind res_bind].
  destruct (dt_subtract_rel r1 lf W1) as (r2 & E2 & W2 & G2). rewrite E2. cbn [mbind res_bind].
  exists th, r2, w'. split; [reflexivity|]. split; [exact W2|]. split; [exact Ww'|]. split.
  - intros k x. rewrite G2, Glf, R1. split.
    + destruct (tget r k) as [x'|] eqn:Ex; [|discriminate]. destruct (is_leaf_disp x') eqn:El; [discriminate|]. intros [= <-]. apply RR in Ex as (v & Hv & Ev). eauto.
    + intros (v & Hv & Ev & El). assert (Ex : tget r k = Some x) by (apply RR; eauto). now rewrite Ex, El.
  - intros k x. rewrite Gw. destruct (match t_weights st with Some w0 => tget w0 k | None => None end) as [v0|].
    + split; [intros [= <-]; auto|]. intros [X|[X _]]; congruence.
    + rewrite LW, RR. split; [intros A; right; auto|]. intros [X|[_ X]]; [discriminate|exact X].
Qed.

(** ** Pairs of ids and rows *)
Definition pairs {A} (a : nat) (l : list A) : list (nat * A) := combine (seq a (length l - a)) (drop a l).
Lemma pairs_elem {A} (a : nat) (l : list A) i x : (i, x) ∈ pairs a l <-> a <= i /\ l !! i = Some x.
Proof.
  unfold pairs. rewrite <- (drop_length l a).
  assert (G : forall (l : list A) a, (i, x) ∈ combine (seq a (length l)) l <-> a <= i /\ l !! (i - a) = Some x).
  { clear. induction l as [|y l IH]; intros a; cbn [length seq combine].
    - rewrite lookup_nil. split; [intros H; inversion H|intros [_ H]; discriminate H].
    - rewrite elem_of_cons, IH. split.
      + intros [[= -> ->]|[H1 H2]]; [rewrite Nat.sub_diag; auto|]. split; [lia|]. now replace (i - a) with (S (i - S a)) by lia.
      + intros [H1 H2]. destruct (decide (i = a)) as [->|N]; [rewrite Nat.sub_diag in H2; cbn in H2; injection H2 as ->; now left|].
        right. split; [lia|]. replace (i - a) with (S (i - S a)) in H2 by lia. exact H2. }
  rewrite G, lookup_drop. split; intros [H1 H2]; (split; [exact H1|]); [now replace i with (a + (i - a)) by lia|now replace (a + (i - a)) with i by lia].
Qed.
Lemma pairs_keys {A} (a : nat) (l : list A) : NoDup (pairs a l).*1.
Proof.
  unfold pairs. change (NoDup (map fst (combine (seq a (length l - a)) (drop a l)))).
  assert (E : map fst (combine (seq a (length l - a)) (drop a l)) = seq a (length l - a)).
  { rewrite <- (drop_length l a). generalize (drop a l) as m. clear. intros m. revert a. induction m as [|x m IH]; intros a; [reflexivity|]. cbn. f_equal. apply IH. }
  rewrite E. apply NoDup_ListNoDup, seq_NoDup.
Qed.

Section Levels.
  Context {K : Type} `{EqDecision K} (U : list K) (ND : NoDup U) (cfg : pcfg K) (me : party K) (PK : party_ok U cfg me) (vg vh : K -> Qc) (gh : dtable K (Qc * Qc)).
  Context (V : forall k, k ∈ U -> is_double (vg k) /\ is_double (vh k) /\ (qabs (vg k) <= 1)%Qc /\ (0 <= vh k)%Qc /\ (vh k <= 1)%Qc).
  Context (Wgh : dt_wf gh) (Kgh : forall k, k ∈ dt_keys gh <-> k ∈ U) (Vgh : forall k c, (k, c) ∈ dt_data gh -> c = (vg k, vh k)).
  Context (LF : (1 <= p_min_leaf me)%Z) (ST : c_step cfg <> 0).
  Local Notation P := (c_par cfg).
  Local Notation lam := (reg_lambda (c_par cfg)).
  Local Notation mi := (min_impurity (c_par cfg)).
  Local Notation n := (Z.of_nat (length U)).
  Context (d : nat).
  Local Notation m := (n * (Z.of_nat d + 1))%Z.
  Let i : Qc := (/ lam)%Qc.
  Let E : Qc := (ulp * (zq (3 * m) * zq (3 * m)))%Qc.
  Let W : Qc := (p2 (-45) * (zq m * zq m * zq m) * (i + i * i))%Qc.
  Let D : Qc := (p2 (-38) * (zq n * zq n * (zq n * zq n)) * (i + i * i))%Qc.
  Let least : Qc := fround (mi + fround FLOAT_ZERO)%Qc.
  Context (MD : fround mi = mi) (n1 : (1 <= n)%Z) (m1 : (m <= 2 ^ 47)%Z) (lam0 : (0 < lam)%Qc) (lamm : (p2 (-44) * (zq m * zq m) <= lam)%Qc).
  Local Notation near_info := (near_info U cfg me vg vh).
  Local Notation near_leaf := (near_leaf U me vg vh lam least D d).
  Local Notation near_split := (near_split U me vg vh lam least D d).
  Local Notation near_stats := (near_stats U vg vh lam E W).

  Lemma nm : (1 <= n <= m)%Z. Proof. split; [exact n1|]. nia. Qed.
  Lemma lamn : (p2 (-44) * (zq n * zq n) <= lam)%Qc.
  Proof.
    eapply Qcle_trans; [|exact lamm]. apply mul_le_l; [apply Qclt_le_weak, p2_pos|]. pose proof nm as X. assert (A : (zq n <= zq m)%Qc) by (apply zq_le; lia). assert (B : (0 <= zq n)%Qc) by (apply (zq_le 0); lia).
    clear - A B. generalize dependent (zq m). intros. qnra.
  Qed.
  Lemma i0 : (0 < i)%Qc. Proof. refine (proj1 (i_pos 1%Qc 0%Qc lam lam0 _)). clear - lam0. qlra. Qed.
  Lemma mul_nn a b : (0 <= a)%Qc -> (0 <= b)%Qc -> (0 <= a * b)%Qc. Proof. clear. intros. qnra. Qed.
  Lemma D0 : (0 <= D)%Qc.
  Proof.
    pose proof i0 as I0. assert (B : (0 <= zq n)%Qc) by (apply (zq_le 0); lia). unfold D. apply mul_nn; [apply mul_nn; [apply Qclt_le_weak, p2_pos|auto using mul_nn]|].
    clear - I0. clearbody i. qnra.
  Qed.
  Lemma mi_least : (mi <= least)%Qc.
  Proof.
    unfold least. rewrite <- MD at 1. apply fround_mono. assert (X : (0 <= fround FLOAT_ZERO)%Qc) by (apply qleb_true; vm_compute; reflexivity). clear - X. qlra.
  Qed.

  (** The stored numbers of a node at a level. *)
  Definition stats (S : K -> bool) (lv : nat) (nd : node) : Prop :=
    near (n_grad nd) (3 * n * (Z.of_nat lv + 1)) (sum_if S vg U) /\ near (n_hess nd) (3 * n * (Z.of_nat lv + 1)) (sum_if S vh U) /\ f_node_weight lam (n_grad nd) (n_hess nd) = Ok (n_weight nd).

  Lemma near_E lv c q : lv <= d -> near c (3 * n * (Z.of_nat lv + 1)) q -> (qabs (c - q) <= E)%Qc.
  Proof.
    intros L H. apply (near_mono _ _ (3 * m)) in H; [|nia]. destruct H as (_ & _ & H). apply H. lia.
  Qed.
  Lemma weight_at lv g h S : lv <= d -> near g (3 * n * (Z.of_nat lv + 1)) (sum_if S vg U) -> near h (3 * n * (Z.of_nat lv + 1)) (sum_if S vh U) ->
    exists w, f_node_weight lam g h = Ok w /\ (qabs (w - (- sum_if S vg U / (sum_if S vh U + lam))) <= W)%Qc.
  Proof.
    intros L Hg Hh. pose proof nm as NM. destruct (weight_facts m lam) as (F1 & F2 & F3 & F4); [lia|exact lam0|exact lamm|].
    destruct (abs_sum U cfg vg vh V MD S) as (A1 & A2 & A3).
    assert (X : (zq n <= zq m)%Qc) by (apply zq_le; lia).
    destruct (weight_near (zq m) E lam) with (g := sum_if S vg U) (h := sum_if S vh U) (g' := g) (h' := h) as (w & Ew & B); try assumption.
    - apply (zq_le 1). lia.
    - eapply Qcle_trans; [exact A1|exact X].
    - exact (near_E lv _ _ L Hg).
    - exact (near_E lv _ _ L Hh).
    - exists w. split; [exact Ew|]. eapply Qcle_trans; [exact B|exact F4].
  Qed.
  Lemma stats_near S lv nd : lv <= d -> stats S lv nd -> near_stats S nd.
  Proof.
    intros L (A & B & C). split; [exact (near_E lv _ _ L A)|]. split; [exact (near_E lv _ _ L B)|]. destruct (weight_at lv _ _ S L A B) as (w & Ew & Bw). rewrite C in Ew. now injection Ew as <-.
  Qed.

  (** A stored node; [mask] still holds bins. *)
  Definition done_node (mask : dict nat mval) (RS : list (K -> bool)) (DS : list nat) (id : nat) (nd : node) : Prop :=
    n_id nd = id /\ exists S lv, RS !! id = Some S /\ DS !! id = Some lv /\ lv <= d /\ stats S lv nd /\
      ((n_leaf nd = true /\ near_leaf S lv) \/
       (n_leaf nd = false /\ n_site nd = GuestSite /\ exists f b l r, n_fid nd = Some f /\ dict_get id mask = Some (MBin b) /\ near_split S lv f b /\
          n_left nd = Some l /\ n_right nd = Some r /\ id < l < r /\ RS !! l = Some (left_of me S f b) /\ RS !! r = Some (right_of me S f b) /\ DS !! l = Some (lv + 1) /\ DS !! r = Some (lv + 1))).
  (** A node of the queue. *)
  Definition open_node (RS : list (K -> bool)) (DS : list nat) (lv id : nat) (nd : node) : Prop :=
    exists w g h S, nd = Node id GuestSite None w false g h None None /\ RS !! id = Some S /\ DS !! id = Some lv /\ stats S lv nd.
  Definition child (nd : node) (id : nat) : Prop := n_leaf nd = false /\ (n_left nd = Some id \/ n_right nd = Some id).

  Record mid (lv base : nat) (T : list node) (mask : dict nat mval) (num : nat) (RS : list (K -> bool)) (DS : list nat) (queue newq : list node) : Prop := {
    md_done : forall id nd, T !! id = Some nd -> done_node mask RS DS id nd;
    md_len : length RS = length T + length queue + length newq /\ length DS = length RS /\ num + 1 = length RS;
    md_queue : forall j nd, queue !! j = Some nd -> open_node RS DS lv (length T + j) nd;
    md_new : forall j nd, newq !! j = Some nd -> open_node RS DS (lv + 1) (length T + length queue + j) nd;
    md_par : forall id, length T + length queue <= id < length RS -> exists p nd, base <= p /\ T !! p = Some nd /\ child nd id;
    md_kid : forall p nd id, base <= p -> T !! p = Some nd -> child nd id -> length T + length queue <= id < length RS }.

  Lemma open_ext RS DS RS' DS' lv id nd : open_node RS DS lv id nd -> open_node (RS ++ RS') (DS ++ DS') lv id nd.
  Proof.
    intros (w & g & h & S & A & B & C & F). exists w, g, h, S. split; [exact A|]. split; [now apply lookup_app_l_Some|]. split; [now apply lookup_app_l_Some|exact F].
  Qed.
  Lemma done_ext mask mask' RS DS RS' DS' id nd : (forall b, dict_get id mask = Some b -> dict_get id mask' = Some b) -> done_node mask RS DS id nd -> done_node mask' (RS ++ RS') (DS ++ DS') id nd.
  Proof.
    intros HM (A & S & lv & B & C & L & F & G). split; [exact A|]. exists S, lv. split; [now apply lookup_app_l_Some|]. split; [now apply lookup_app_l_Some|]. split; [exact L|]. split; [exact F|].
    destruct G as [G|(G1 & G2 & f & b & l & r & X1 & X2 & X3 & X4 & X5 & X6 & X7 & X8 & X9 & X10)]; [now left|right]. split; [exact G1|]. split; [exact G2|]. exists f, b, l, r.
    split; [exact X1|]. split; [now apply HM|]. split; [exact X3|]. split; [exact X4|]. split; [exact X5|]. split; [exact X6|]. repeat (split; [now apply lookup_app_l_Some|]). now apply lookup_app_l_Some.
  Qed.

  Lemma sum_right S f b v : (sum_if S v U - sum_if (left_of me S f b) v U)%Qc = sum_if (right_of me S f b) v U.
  Proof. rewrite (sum_if_split S (left_of me S f b) (right_of me S f b)); [ring|]. intros k _. unfold left_of, right_of. destruct (S k), (_ <=? _); auto. Qed.

  (** One node of the queue. *)
  Lemma mid_step lv base T mask num (w0 : option (dtable K Qc)) imp RS DS nd queue newq splits j s S :
    mid lv base T mask num RS DS (nd :: queue) newq -> lv <= d -> base <= length T -> splits !! j = Some s -> RS !! length T = Some S -> near_info S s ->
    exists T' mask' num' newq' RS' DS',
      f_update_node P (lv =? d) splits (GState T mask num w0 imp, newq) (j, nd) = Ok (GState T' mask' num' w0 imp, newq') /\ length T' = length T + 1 /\
      mid lv base T' mask' num' (RS ++ RS') (DS ++ DS') queue newq' /\ (lv = d -> newq' = newq) /\ (exists X, T' = T ++ X).
  Proof.
    intros M Hlv Hb Hs HS NI. destruct (md_queue _ _ _ _ _ _ _ _ _ M 0 nd eq_refl) as (w & g & h & S' & End & HS' & HD & SA). rewrite Nat.add_0_r in *. rewrite HS in HS'. injection HS' as <-.
    destruct (md_len _ _ _ _ _ _ _ _ _ M) as (L1 & L2 & L3). cbn [length] in L1. pose proof nm as NM.
    (* as a leaf *)
    assert (LEAF : near_leaf S lv -> exists T' mask' num' newq' RS' DS',
      Ok (GState (T ++ [Node (n_id nd) (n_site nd) (n_fid nd) (n_weight nd) true (n_grad nd) (n_hess nd) (n_left nd) (n_right nd)]) mask num w0 imp, newq) = Ok (GState T' mask' num' w0 imp, newq') /\ length T' = length T + 1 /\
      mid lv base T' mask' num' (RS ++ RS') (DS ++ DS') queue newq' /\ (lv = d -> newq' = newq) /\ (exists X, T' = T ++ X)).
    { intros NL. eexists _, mask, num, newq, [], []. split; [reflexivity|]. rewrite app_length. cbn [length]. split; [reflexivity|]. split; [|split; [auto|eexists; reflexivity]]. rewrite !app_nil_r. constructor.
      - intros id nd' Hid. apply lookup_app_Some in Hid as [Hid|[Hl Hid]]; [apply (md_done _ _ _ _ _ _ _ _ _ M); exact Hid|].
        apply list_lookup_singleton_Some in Hid as [Hid <-]. assert (id = length T) as -> by lia. subst nd. split; [reflexivity|]. exists S, lv. split; [exact HS|]. split; [exact HD|]. split; [exact Hlv|]. split; [exact SA|]. left. auto.
      - rewrite app_length. cbn [length]. lia.
      - intros a nd' Ha. rewrite app_length. cbn [length]. replace (length T + 1 + a) with (length T + Datatypes.S a) by lia. apply (md_queue _ _ _ _ _ _ _ _ _ M). exact Ha.
      - intros a nd' Ha. rewrite app_length. cbn [length]. pose proof (md_new _ _ _ _ _ _ _ _ _ M a nd' Ha) as X. cbn [length] in X. now replace (length T + 1 + length queue + a) with (length T + Datatypes.S (length queue) + a) by lia.
      - intros id Hid. rewrite app_length in Hid. cbn [length] in Hid. destruct (md_par _ _ _ _ _ _ _ _ _ M id) as (p & nd' & A & B & C); [cbn [length]; lia|]. exists p, nd'. split; [exact A|]. split; [now apply lookup_app_l_Some|exact C].
      - intros p nd' id Hp Hnd C. rewrite app_length. cbn [length]. apply lookup_app_Some in Hnd as [Hnd|[Hl Hnd]].
        + pose proof (md_kid _ _ _ _ _ _ _ _ _ M p nd' id Hp Hnd C) as X. cbn [length] in X. lia.
        + apply list_lookup_singleton_Some in Hnd as [_ <-]. destruct C as [C _]. discriminate C. }
    unfold f_update_node. cbn [fst snd t_nodes t_mask t_num t_weights t_imp]. destruct (lv =? d) eqn:El.
    { apply LEAF. left. now apply Nat.eqb_eq. }
    apply Nat.eqb_neq in El. unfold list_index. rewrite Hs. cbn [mbind res_bind].
    destruct NI as [SITE NI]. destruct (si_gain s) as [x|]; [|destruct (si_fid s), (si_bid s); contradiction]. cbn [the_val mbind res_bind]. fold least.
    destruct (qleb x least) eqn:Eq.
    { apply LEAF. right. apply qleb_true in Eq. intros c Hc. pose proof D0 as HD0. pose proof mi_least as HML. fold i in NI. fold D in NI. change (zq 3) with (Q2Qc (3 # 1)).
      destruct (si_fid s) as [f|], (si_bid s) as [b|]; try contradiction.
      - destruct NI as (_ & N2 & N3 & _). specialize (N3 c Hc). change (zq 2) with (Q2Qc (2 # 1)) in N3. apply qabs_le in N2 as [N2 _]. clearbody D least. clear - N2 N3 Eq HD0. qlra.
      - destruct NI as (_ & N2). specialize (N2 c Hc). clearbody D least. clear - N2 HD0 HML. qlra. }
    apply qleb_false in Eq. destruct (si_fid s) as [f|] eqn:Ef, (si_bid s) as [b|] eqn:Eb; try contradiction.
    2:{ exfalso. destruct NI as [NI _]. pose proof mi_least as HML. clearbody least. clear - NI HML Eq. qlra. }
    destruct NI as (N1 & N2 & N3 & gl & hl & Eg & Eh & Ng & Nh). rewrite Eg, Eh. cbn [the_val mbind res_bind].
    assert (Ngl : near gl (3 * n * (Z.of_nat (lv + 1) + 1)) (sum_if (left_of me S f b) vg U)) by (eapply near_mono; [exact Ng|nia]).
    assert (Nhl : near hl (3 * n * (Z.of_nat (lv + 1) + 1)) (sum_if (left_of me S f b) vh U)) by (eapply near_mono; [exact Nh|nia]).
    destruct SA as (SA1 & SA2 & SA3). subst nd. cbn [n_grad n_hess n_weight n_id n_leaf n_site n_fid n_left n_right] in *.
    assert (Ngr : near (fround (g - gl)%Qc) (3 * n * (Z.of_nat (lv + 1) + 1)) (sum_if (right_of me S f b) vg U)).
    { rewrite <- sum_right. replace (3 * n * (Z.of_nat (lv + 1) + 1))%Z with (3 * n * (Z.of_nat lv + 1) + 3 * n)%Z by lia. exact (near_step _ _ _ _ _ _ _ _ SA1 Ng (or_intror (conj eq_refl eq_refl))). }
    assert (Nhr : near (fround (h - hl)%Qc) (3 * n * (Z.of_nat (lv + 1) + 1)) (sum_if (right_of me S f b) vh U)).
    { rewrite <- sum_right. replace (3 * n * (Z.of_nat (lv + 1) + 1))%Z with (3 * n * (Z.of_nat lv + 1) + 3 * n)%Z by lia. exact (near_step _ _ _ _ _ _ _ _ SA2 Nh (or_intror (conj eq_refl eq_refl))). }
    destruct (weight_at (lv + 1) gl hl _ ltac:(lia) Ngl Nhl) as (wl & Ewl & _). destruct (weight_at (lv + 1) _ _ _ ltac:(lia) Ngr Nhr) as (wr & Ewr & _).
    rewrite Ewl. cbn [mbind res_bind]. rewrite Ewr. cbn [mbind res_bind the_val].
    set (cl := Node (num + 1) GuestSite None wl false gl hl None None). set (cr := Node (num + 2) GuestSite None wr false (fround (g - gl)%Qc) (fround (h - hl)%Qc) None None).
    assert (KL : RS ++ [left_of me S f b; right_of me S f b] = RS ++ [left_of me S f b; right_of me S f b]) by reflexivity. clear KL.
    assert (RL : (RS ++ [left_of me S f b; right_of me S f b]) !! (num + 1) = Some (left_of me S f b)) by (rewrite lookup_app_r by lia; replace (num + 1 - length RS) with 0 by lia; reflexivity).
    assert (RR : (RS ++ [left_of me S f b; right_of me S f b]) !! (num + 2) = Some (right_of me S f b)) by (rewrite lookup_app_r by lia; replace (num + 2 - length RS) with 1 by lia; reflexivity).
    assert (DL : (DS ++ [lv + 1; lv + 1]) !! (num + 1) = Some (lv + 1)) by (rewrite lookup_app_r by lia; replace (num + 1 - length DS) with 0 by lia; reflexivity).
    assert (DR : (DS ++ [lv + 1; lv + 1]) !! (num + 2) = Some (lv + 1)) by (rewrite lookup_app_r by lia; replace (num + 2 - length DS) with 1 by lia; reflexivity).
    eexists _, _, _, _, [left_of me S f b; right_of me S f b], [lv + 1; lv + 1]. split; [reflexivity|]. rewrite app_length. cbn [length]. split; [reflexivity|]. split; [|split; [intros; contradiction|eexists; reflexivity]]. constructor.
    - intros id nd' Hid. apply lookup_app_Some in Hid as [Hid|[Hl Hid]].
      + apply (done_ext mask); [|exact (md_done _ _ _ _ _ _ _ _ _ M _ _ Hid)]. intros v Hv. rewrite dict_get_set_ne; [exact Hv|]. apply lookup_lt_Some in Hid. lia.
      + apply list_lookup_singleton_Some in Hid as [Hid <-]. assert (id = length T) as -> by lia. split; [reflexivity|]. exists S, lv. split; [now apply lookup_app_l_Some|]. split; [now apply lookup_app_l_Some|].
        split; [exact Hlv|]. split; [exact (conj SA1 (conj SA2 SA3))|]. right. split; [reflexivity|]. split; [exact SITE|]. exists f, b, (num + 1), (num + 2).
        split; [reflexivity|]. split; [apply dict_get_set_eq|]. split; [|split; [reflexivity|]; split; [reflexivity|]; split; [lia|auto]].
        split; [lia|]. split; [exact N1|]. split; [|exact N3]. fold i in N2. fold D in N2. apply qabs_le in N2 as [_ N2]. clearbody D least. clear - N2 Eq. qlra.
    - rewrite !app_length. cbn [length]. lia.
    - intros a nd' Ha. rewrite app_length. cbn [length]. replace (length T + 1 + a) with (length T + Datatypes.S a) by lia. apply open_ext, (md_queue _ _ _ _ _ _ _ _ _ M). exact Ha.
    - intros a nd' Ha. rewrite app_length. cbn [length]. apply lookup_app_Some in Ha as [Ha|[Hl Ha]].
      + pose proof (md_new _ _ _ _ _ _ _ _ _ M a nd' Ha) as X. cbn [length] in X. apply open_ext. now replace (length T + 1 + length queue + a) with (length T + Datatypes.S (length queue) + a) by lia.
      + remember (a - length newq) as a' eqn:Ea. destruct a' as [|[|a']]; [| |apply lookup_lt_Some in Ha; cbn in Ha; lia]; cbn in Ha; injection Ha as <-.
        * replace (length T + 1 + length queue + a) with (num + 1) by lia. exists wl, gl, hl, (left_of me S f b). split; [reflexivity|]. split; [exact RL|]. split; [exact DL|]. exact (conj Ngl (conj Nhl Ewl)).
        * replace (length T + 1 + length queue + a) with (num + 2) by lia. eexists wr, _, _, (right_of me S f b). split; [reflexivity|]. split; [exact RR|]. split; [exact DR|]. exact (conj Ngr (conj Nhr Ewr)).
    - intros id Hid. rewrite !app_length in Hid. cbn [length] in Hid. destruct (decide (id < length RS)) as [Lt|Ge].
      + destruct (md_par _ _ _ _ _ _ _ _ _ M id) as (p & nd' & A & B & C); [cbn [length]; lia|]. exists p, nd'. split; [exact A|]. split; [now apply lookup_app_l_Some|exact C].
      + exists (length T). eexists. split; [exact Hb|]. split; [rewrite lookup_app_r by lia; rewrite Nat.sub_diag; reflexivity|]. split; [reflexivity|]. cbn [n_left n_right]. destruct (decide (id = num + 1)) as [->|]; [now left|]. right. f_equal. lia.
    - intros p nd' id Hp Hnd C. rewrite !app_length. cbn [length]. apply lookup_app_Some in Hnd as [Hnd|[Hl Hnd]].
      + pose proof (md_kid _ _ _ _ _ _ _ _ _ M p nd' id Hp Hnd C) as X. cbn [length] in X. lia.
      + apply list_lookup_singleton_Some in Hnd as [_ <-]. destruct C as [_ C]. cbn [n_left n_right] in C. destruct C as [[= <-]|[= <-]]; lia.
  Qed.

  (** The whole queue. *)
  Lemma mid_queue lv base (w0 : option (dtable K Qc)) imp splits : lv <= d -> forall queue j T mask num RS DS newq,
    mid lv base T mask num RS DS queue newq -> base <= length T ->
    (forall a nd, queue !! a = Some nd -> exists s S, splits !! (j + a) = Some s /\ RS !! (length T + a) = Some S /\ near_info S s) ->
    exists T' mask' num' newq' RS' DS',
      foldM (f_update_node P (lv =? d) splits) (GState T mask num w0 imp, newq) (combine (seq j (length queue)) queue) = Ok (GState T' mask' num' w0 imp, newq') /\
      length T' = length T + length queue /\ mid lv base T' mask' num' (RS ++ RS') (DS ++ DS') [] newq' /\ (lv = d -> newq' = newq) /\ (exists X, T' = T ++ X).
  Proof.
    intros Hlv. induction queue as [|nd queue IH]; intros j T mask num RS DS newq M Hb HS.
    { exists T, mask, num, newq, [], []. rewrite !app_nil_r. cbn. split; [reflexivity|]. split; [lia|]. split; [exact M|]. split; [auto|]. exists []. now rewrite app_nil_r. }
    destruct (HS 0 nd eq_refl) as (s & S & Hs & HR & NI). rewrite Nat.add_0_r in Hs, HR.
    destruct (mid_step lv base T mask num w0 imp RS DS nd queue newq splits j s S M Hlv Hb Hs HR NI) as (T1 & mask1 & num1 & newq1 & R1 & D1 & E1 & L1 & M1 & K1 & X1 & ->).
    destruct (IH (Datatypes.S j) _ mask1 num1 (RS ++ R1) (DS ++ D1) newq1 M1) as (T2 & mask2 & num2 & newq2 & R2 & D2 & E2 & L2 & M2 & K2 & X2 & ->); [lia| |].
    { intros a nd' Ha. destruct (HS (Datatypes.S a) nd' Ha) as (s' & S' & Hs' & HR' & NI'). exists s', S'. split; [now replace (Datatypes.S j + a) with (j + Datatypes.S a) by lia|].
      split; [|exact NI']. replace (length (T ++ X1) + a) with (length T + Datatypes.S a) by lia. now apply lookup_app_l_Some. }
    eexists _, mask2, num2, newq2, (R1 ++ R2), (D1 ++ D2). cbn [length seq combine foldM]. rewrite E1, E2. split; [reflexivity|]. split; [lia|]. rewrite !app_assoc. split; [exact M2|]. split; [intros X; rewrite (K2 X); exact (K1 X)|]. rewrite <- app_assoc. eexists. reflexivity.
  Qed.

  (** ** The search of a level *)
  Lemma mapR_exists {A B} (f : A -> res B) (R : A -> B -> Prop) (l : list A) : (forall x, x ∈ l -> exists y, f x = Ok y /\ R x y) -> exists ys, mapR f l = Ok ys /\ Forall2 R l ys.
  Proof.
    clear. induction l as [|x l IH]; intros H; [exists []; split; [reflexivity|constructor]|].
    destruct (H x ltac:(left)) as (y & E1 & R1). destruct IH as (ys & E2 & R2); [intros z Hz; apply H; now right|]. exists (y :: ys). cbn. rewrite E1. cbn [mbind res_bind]. rewrite E2. split; [reflexivity|now constructor].
  Qed.
  Definition found (RS : list (K -> bool)) (nd : node) (s : splitinfo Qc Qc) : Prop := exists S, RS !! n_id nd = Some S /\ near_info S s.

  Lemma f_batch pos a RS cur dbn : pos_ok U pos (pairs a RS) -> (forall nd, nd ∈ cur -> a <= n_id nd /\ is_Some (RS !! n_id nd)) -> NoDup (map n_id cur) -> cur <> [] ->
    with_positions (c_data cfg) pos = Ok dbn -> exists ss, (forall acc, f_local_batch cfg gh dbn acc cur = Ok (acc ++ ss)) /\ Forall2 (found RS) cur ss.
  Proof.
    intros PO IN NDc NE Ed. set (row_of := fun nd : node => default (fun _ : K => false) (RS !! n_id nd)). set (cs := map (fun nd => (n_id nd, row_of nd)) cur).
    assert (K1 : cs.*1 = map n_id cur) by (unfold cs; change (map fst (map (fun nd => (n_id nd, row_of nd)) cur) = map n_id cur); rewrite map_map; reflexivity).
    assert (K2 : map snd cs = map row_of cur) by (unfold cs; rewrite map_map; reflexivity).
    assert (SUB : forall x, x ∈ cs -> x ∈ pairs a RS).
    { intros x Hx. unfold cs in Hx. apply elem_of_list_fmap in Hx as (nd & -> & Hx). destruct (IN nd Hx) as (A & S & HS). apply pairs_elem. split; [exact A|]. unfold row_of. now rewrite HS. }
    destruct (node_hists U ND cfg me PK fops near near_laws vg vh gh Wgh (fun k Hk => proj2 (Kgh k) Hk)) with (pos := pos) (q := pairs a RS) (cur := cs) (dbn := dbn) as (h & Eh & Fh).
    - intros k c Hc. assert (Hk : k ∈ U) by (apply Kgh; apply (elem_of_list_fmap_1 fst) in Hc; exact Hc). rewrite (Vgh k c Hc). destruct (V k Hk) as (A1 & A2 & A3 & A4 & A5). split; apply near_double; auto.
      cbn [snd]. apply qabs_le. clear - A4 A5. split; qlra.
    - exact PO.
    - exact SUB.
    - now rewrite K1.
    - unfold cs. destruct cur; [easy|discriminate].
    - exact Ed.
    - rewrite K1 in Eh. rewrite K2 in Fh.
      destruct (mapR_exists (f_find_split_guest P (c_valid cfg)) (fun hj s => forall S, node_hist U cfg me near vg vh hj S -> near_info S s) h) as (ss & Es & Fs).
      { intros hj Hj. apply elem_of_list_lookup in Hj as (j & Hj). destruct (Forall2_lookup_l _ _ _ _ _ Fh Hj) as (S & _ & NH). pose proof nm as NM.
        destruct (near_search U cfg me PK vg vh V MD ltac:(clear - NM m1; lia) lam0 lamn S hj NH) as (s & Es & _). exists s. split; [exact Es|]. intros S' NH'.
        destruct (near_search U cfg me PK vg vh V MD ltac:(clear - NM m1; lia) lam0 lamn S' hj NH') as (s' & Es' & NI). rewrite Es in Es'. injection Es' as <-. exact NI. }
      exists ss. split.
      + intros acc. unfold f_local_batch. rewrite Eh. cbn [mbind res_bind]. rewrite Es. cbn [mbind res_bind]. rewrite local_merge_id. reflexivity.
      + pose proof (Forall2_length _ _ _ Fh) as L1. rewrite map_length in L1. pose proof (Forall2_length _ _ _ Fs) as L2. apply Forall2_same_length_lookup. split; [lia|]. intros j nd s Hnd Hs.
        destruct (Forall2_lookup_r _ _ _ _ _ Fs Hs) as (hj & Hj & NI). destruct (Forall2_lookup_l _ _ _ _ _ Fh Hj) as (S & HS & NH). rewrite map_lookup, Hnd in HS. injection HS as <-.
        destruct (IN nd) as (_ & S & HS); [eapply elem_of_list_lookup_2; exact Hnd|]. exists S. split; [exact HS|]. unfold row_of in NH. rewrite HS in NH. apply NI. exact NH.
  Qed.

  Lemma f_batches pos a RS queue dbn : pos_ok U pos (pairs a RS) -> (forall nd, nd ∈ queue -> a <= n_id nd /\ is_Some (RS !! n_id nd)) -> NoDup (map n_id queue) ->
    with_positions (c_data cfg) pos = Ok dbn -> exists bs ss, batches (c_step cfg) queue = Ok bs /\ foldM (f_local_batch cfg gh dbn) [] bs = Ok ss /\ Forall2 (found RS) queue ss.
  Proof.
    intros PO IN NDq Ed. destruct (chunks_concat (c_step cfg) (length queue) queue ST (le_n _)) as [CC CN].
    assert (EB : batches (c_step cfg) queue = Ok (chunks (length queue) (c_step cfg) queue)) by (unfold batches; destruct (c_step cfg); [easy|reflexivity]).
    exists (chunks (length queue) (c_step cfg) queue). generalize dependent (chunks (length queue) (c_step cfg) queue). intros bs CC CN EB.
    assert (G : forall bs acc, (forall nd, nd ∈ concat bs -> a <= n_id nd /\ is_Some (RS !! n_id nd)) -> NoDup (map n_id (concat bs)) -> Forall (fun c => c <> []) bs ->
      exists ss, foldM (f_local_batch cfg gh dbn) acc bs = Ok (acc ++ ss) /\ Forall2 (found RS) (concat bs) ss).
    { clear EB CN CC bs. induction bs as [|c bs IH]; intros acc I1 I2 I3; [exists []; split; [cbn; now rewrite app_nil_r|constructor]|]. cbn [concat] in *. rewrite map_app in I2. apply NoDup_app in I2 as (I2 & _ & I4). apply Forall_cons in I3 as [I3 I5].
      destruct (f_batch pos a RS c dbn PO ltac:(intros nd Hn; apply I1, elem_of_app; now left) I2 I3 Ed) as (s1 & E1 & F1).
      destruct (IH (acc ++ s1) ltac:(intros nd Hn; apply I1, elem_of_app; now right) I4 I5) as (s2 & E2 & F2). exists (s1 ++ s2). cbn [foldM]. rewrite E1, E2, app_assoc. split; [reflexivity|]. now apply Forall2_app. }
    destruct (G bs [] ltac:(now rewrite CC) ltac:(now rewrite CC) CN) as (ss & E1 & F1). exists ss. rewrite CC in F1. auto.
  Qed.

  (** ** One level *)
  Definition in_leaf (T : list node) (RS : list (K -> bool)) (k : K) (nd : node) : Prop := exists id S, T !! id = Some nd /\ n_leaf nd = true /\ RS !! id = Some S /\ S k = true.
  Record level (lv : nat) (st : @gstate K) (queue : list node) (pos : dtable K disp) (RS : list (K -> bool)) (DS : list nat) : Prop := {
    lv_mid : mid lv (length (t_nodes st)) (t_nodes st) (t_mask st) (t_num st) RS DS queue [];
    lv_pos : pos_ok U pos (pairs (length (t_nodes st)) RS);
    lv_wf : forall w0, t_weights st = Some w0 -> dt_wf w0;
    lv_w : forall k v, wget (t_weights st) k = Some v <-> k ∈ U /\ exists nd, in_leaf (t_nodes st) RS k nd /\ v = n_weight nd;
    lv_free : forall k nd id S, k ∈ U -> in_leaf (t_nodes st) RS k nd -> length (t_nodes st) <= id -> RS !! id = Some S -> S k = false;
    lv_cover : forall k, k ∈ U -> (exists nd, in_leaf (t_nodes st) RS k nd) \/ exists id S, length (t_nodes st) <= id /\ RS !! id = Some S /\ S k = true;
    lv_root : exists S, RS !! 0 = Some S /\ DS !! 0 = Some 0 /\ forall k, k ∈ U -> S k = true }.

  Lemma goes_model S f b k row : (f, b) ∈ cands U me S -> tget (c_data cfg) k = Some row -> goes_left f (MBin b) (c_zero cfg) row = Ok (p_bin me k f <=? b).
  Proof.
    intros HC Hr. destruct (cands_good U me cfg S f b PK LF HC) as (pts & Hp & _). unfold goes_left, dict_index. destruct (po_zero _ _ _ PK _ _ Hp) as (z & Hz & _). rewrite Hz. cbn [mbind res_bind mnum]. f_equal.
    apply tget_elem in Hr; [|apply PK]. rewrite (po_bin _ _ _ PK k row _ Hr) by (eapply lookup_lt_Some; exact Hp). unfold bin_of, sv_get. rewrite Hz.
    destruct (_ <=? _) eqn:Eb.
    - apply qleb_true. apply zq_le. apply Nat.leb_le in Eb. lia.
    - apply qleb_false. apply zq_lt. apply Nat.leb_gt in Eb. lia.
  Qed.

  (** Where a row of a stored node goes. *)
  Lemma dispatch_done mask RS DS T id nd k row S : done_node mask RS DS id nd -> T !! id = Some nd -> RS !! id = Some S -> S k = true -> tget (c_data cfg) k = Some row ->
    exists x, guest_dispatch T mask (c_zero cfg) (row, (1%Z, id)) = Ok x /\
      ((n_leaf nd = true /\ x = DLeaf (n_weight nd)) \/
       (n_leaf nd = false /\ exists f b l r, n_left nd = Some l /\ n_right nd = Some r /\ RS !! l = Some (left_of me S f b) /\ RS !! r = Some (right_of me S f b) /\ x = DGo 1 (if p_bin me k f <=? b then l else r))).
  Proof.
    intros (_ & S' & lv & HS & _ & _ & _ & C) HT HS' HSk Hr. rewrite HS in HS'. injection HS' as ->. unfold guest_dispatch, list_index. cbn [fst snd]. rewrite HT. cbn [mbind res_bind].
    destruct C as [[C1 _]|(C1 & C2 & f & b & l & r & C3 & C4 & C5 & C6 & C7 & C8 & C9 & C10 & _)]; rewrite C1; [eexists; split; [reflexivity|]; left; auto|].
    rewrite C2, C3. cbn [the_fid mbind res_bind]. unfold decode_val. rewrite C4. cbn [mbind res_bind]. rewrite (goes_model S f b k row (proj1 (proj2 C5)) Hr). cbn [mbind res_bind].
    rewrite C6, C7. exists (DGo 1 (if p_bin me k f <=? b then l else r)). split; [destruct (p_bin me k f <=? b); reflexivity|]. right. split; [reflexivity|]. exists f, b, l, r. repeat (split; [assumption||reflexivity|]). reflexivity.
  Qed.

  Lemma level_step lv st queue pos RS DS : level lv st queue pos RS DS -> lv <= d -> exists dbn bs splits st1 newq th r2 st2 RS' DS',
    with_positions (c_data cfg) pos = Ok dbn /\ batches (c_step cfg) queue = Ok bs /\ foldM (f_local_batch cfg gh dbn) [] bs = Ok splits /\
    f_update_queue P (lv =? d) splits st queue = Ok (st1, newq) /\ redispatch_local (c_zero cfg) st1 dbn = Ok (th, r2, st2) /\
    level (lv + 1) st2 newq r2 (RS ++ RS') (DS ++ DS') /\ (lv = d -> newq = []).
  Proof.
    intros [M PO WF WW FR CV RT] Hlv. destruct st as [T mask num w0 imp]. cbn [t_nodes t_mask t_num t_weights t_imp] in *.
    destruct (md_len _ _ _ _ _ _ _ _ _ M) as (L1 & L2 & L3). cbn [length] in L1. rewrite Nat.add_0_r in L1.
    destruct (with_positions_ok U cfg pos _ PO) as (dbn & Ed & Wd & Gd).
    assert (QI : forall j nd, queue !! j = Some nd -> n_id nd = length T + j /\ is_Some (RS !! n_id nd)).
    { intros j nd Hj. destruct (md_queue _ _ _ _ _ _ _ _ _ M j nd Hj) as (w & g & h & S & -> & HS & _). cbn. eauto. }
    destruct (f_batches pos (length T) RS queue dbn PO) as (bs & splits & Eb & Es & Fs).
    { intros nd Hn. apply elem_of_list_lookup in Hn as (j & Hj). destruct (QI j nd Hj) as [A B]. split; [lia|exact B]. }
    { apply NoDup_alt. intros a b id Ha Hb. rewrite map_lookup in Ha, Hb. destruct (queue !! a) as [x|] eqn:Ex, (queue !! b) as [y|] eqn:Ey; try discriminate. cbn in Ha, Hb. injection Ha as Ha. injection Hb as Hb.
      destruct (QI a x Ex) as [Q1 _]. destruct (QI b y Ey) as [Q2 _]. lia. }
    { exact Ed. }
    destruct (mid_queue lv (length T) w0 imp splits Hlv queue 0 T mask num RS DS [] M (le_n _)) as (T1 & mask1 & num1 & newq & RS' & DS' & EU & LT & M1 & NQ & X & EX).
    { intros a nd Ha. destruct (Forall2_lookup_l _ _ _ _ _ Fs Ha) as (s & Hs & S & HS & NI). exists s, S. rewrite (proj1 (QI a nd Ha)) in HS. auto. }
    destruct (md_len _ _ _ _ _ _ _ _ _ M1) as (L4 & L5 & L6). cbn [length] in L4. rewrite Nat.add_0_r in L4.
    assert (OLD : forall id nd, T !! id = Some nd -> T1 !! id = Some nd) by (intros id nd Hi; subst T1; now apply lookup_app_l_Some).
    assert (AT : forall id S, RS !! id = Some S -> exists nd, T1 !! id = Some nd).
    { intros id S HS. apply lookup_lt_is_Some. apply lookup_lt_Some in HS. lia. }
    assert (RX : forall id S, RS !! id = Some S -> (RS ++ RS') !! id = Some S) by (intros; now apply lookup_app_l_Some).
    assert (RY : forall id S, id < length T1 -> (RS ++ RS') !! id = Some S -> RS !! id = Some S) by (intros id S Hi HS; now rewrite lookup_app_l in HS by lia).
    (* dispatch of an open row *)
    assert (DSP : forall k id S row, length T <= id -> RS !! id = Some S -> k ∈ U -> S k = true -> tget (c_data cfg) k = Some row ->
      exists nd x, T1 !! id = Some nd /\ guest_dispatch T1 mask1 (c_zero cfg) (row, (1%Z, id)) = Ok x /\
       ((n_leaf nd = true /\ x = DLeaf (n_weight nd)) \/
       (n_leaf nd = false /\ exists f b l r, n_left nd = Some l /\ n_right nd = Some r /\ (RS ++ RS') !! l = Some (left_of me S f b) /\ (RS ++ RS') !! r = Some (right_of me S f b) /\ x = DGo 1 (if p_bin me k f <=? b then l else r)))).
    { intros k id S row Hid HS Hk HSk Hr. destruct (AT id S HS) as (nd & Hnd). destruct (dispatch_done mask1 (RS ++ RS') (DS ++ DS') T1 id nd k row S) as (x & Ex & C); auto.
      { exact (md_done _ _ _ _ _ _ _ _ _ M1 id nd Hnd). }
      exists nd, x. auto. }
    assert (ROW : forall k, k ∈ U -> exists row, tget (c_data cfg) k = Some row) by (intros k Hk; apply tget_is_Some; apply PK; exact Hk).
    assert (POS : forall k id S, length T <= id -> RS !! id = Some S -> k ∈ U -> S k = true -> tget pos k = Some (DGo 1 id)).
    { intros k id S Hid HS Hk HSk. apply (ps_set _ _ _ PO id S k); auto. apply pairs_elem. auto. }
    destruct (redispatch_rel (c_zero cfg) (GState T1 mask1 num1 w0 imp) dbn Wd WF) as (th & r2 & w' & ER & W2 & Ww & G2 & Gw); cbn [t_nodes t_mask t_num t_weights t_imp] in *.
    { intros k v Hv. apply Gd in Hv as (row & id & Hr & Hp & ->). destruct (ps_pos _ _ _ PO k _ Hp) as (Hk & id' & S & Hin & [= <-] & HSk). apply pairs_elem in Hin as [Hid HS].
      destruct (DSP k id S row Hid HS Hk HSk Hr) as (nd & x & _ & Ex & C). exists x. split; [exact Ex|]. destruct C as [[_ ->]|(_ & f & b & l & r & _ & _ & _ & _ & ->)]; reflexivity. }
    assert (KID : forall c S, length T1 <= c -> (RS ++ RS') !! c = Some S -> exists p nd Sp f b l r, length T <= p /\ T1 !! p = Some nd /\ n_leaf nd = false /\ n_left nd = Some l /\ n_right nd = Some r /\ RS !! p = Some Sp /\
      ((c = l /\ S = left_of me Sp f b) \/ (c = r /\ S = right_of me Sp f b)) /\ (RS ++ RS') !! l = Some (left_of me Sp f b) /\ (RS ++ RS') !! r = Some (right_of me Sp f b)).
    { intros c S Hc HS. pose proof (lookup_lt_Some _ _ _ HS) as LS. destruct (md_par _ _ _ _ _ _ _ _ _ M1 c) as (p & nd & Hp & Hnd & Hcl & Hch); [cbn [length]; lia|].
      destruct (md_done _ _ _ _ _ _ _ _ _ M1 p nd Hnd) as (_ & Sp & lv' & HSp & _ & _ & _ & [[C _]|(_ & _ & f & b & l & r & _ & _ & _ & C6 & C7 & _ & C9 & C10 & _)]); [congruence|].
      exists p, nd, Sp, f, b, l, r. split; [exact Hp|]. split; [exact Hnd|]. split; [exact Hcl|]. split; [exact C6|]. split; [exact C7|]. split; [apply RY; [eapply lookup_lt_Some; exact Hnd|exact HSp]|].
      split; [|auto]. rewrite C6, C7 in Hch. destruct Hch as [[= ->]|[= ->]]; [left|right]; (split; [reflexivity|congruence]). }
    assert (SUB : forall Sp f b k, left_of me Sp f b k = true \/ right_of me Sp f b k = true -> Sp k = true).
    { clear. intros Sp f b k. unfold left_of, right_of. intros [H|H]; apply andb_true_iff in H; tauto. }
    exists dbn, bs, splits, (GState T1 mask1 num1 w0 imp), newq, th, r2, (GState T1 mask1 num1 (Some w') imp), RS', DS'.
    split; [exact Ed|]. split; [exact Eb|]. split; [exact Es|]. split; [exact EU|]. split; [exact ER|]. split; [|exact NQ].
    constructor; cbn [t_nodes t_mask t_num t_weights t_imp].
    - (* the nodes *)
      constructor.
      + exact (md_done _ _ _ _ _ _ _ _ _ M1).
      + cbn [length]. lia.
      + intros j nd Hj. pose proof (md_new _ _ _ _ _ _ _ _ _ M1 j nd Hj) as Y. cbn [length] in Y. now rewrite Nat.add_0_r in Y.
      + intros j nd Hj. now rewrite lookup_nil in Hj.
      + intros id Hid. lia.
      + intros p nd id Hp Hnd. apply lookup_lt_Some in Hnd. lia.
    - (* the positions *)
      constructor.
      + exact W2.
      + apply pairs_keys.
      + intros k x Hx. apply G2 in Hx as (v & Hv & Ex & NLf). apply Gd in Hv as (row & id & Hr & Hp & ->). destruct (ps_pos _ _ _ PO k _ Hp) as (Hk & id' & S & Hin & [= <-] & HSk). apply pairs_elem in Hin as [Hid HS].
        split; [exact Hk|]. destruct (DSP k id S row Hid HS Hk HSk Hr) as (nd & x' & Hnd & Ex' & C). rewrite Ex in Ex'. injection Ex' as <-.
        destruct C as [[_ ->]|(Hl & f & b & l & r & C1 & C2 & C3 & C4 & ->)]; [discriminate|].
        assert (KB : forall c, child nd c -> length T1 <= c) by (intros c Hc; pose proof (md_kid _ _ _ _ _ _ _ _ _ M1 id nd c Hid Hnd Hc) as Y; cbn [length] in Y; lia).
        destruct (p_bin me k f <=? b) eqn:Eb'.
        * exists l, (left_of me S f b). split; [apply pairs_elem; split; [apply KB; split; auto|exact C3]|]. split; [reflexivity|]. unfold left_of. now rewrite HSk, Eb'.
        * exists r, (right_of me S f b). split; [apply pairs_elem; split; [apply KB; split; auto|exact C4]|]. split; [reflexivity|]. unfold right_of. now rewrite HSk, Eb'.
      + intros c S k Hin Hk HSk. apply pairs_elem in Hin as [Hc HS]. destruct (KID c S Hc HS) as (p & nd & Sp & f & b & l & r & Hp & Hnd & Hnl & Hl & Hr & HSp & HC & RL & RR).
        assert (SPk : Sp k = true) by (apply (SUB Sp f b k); destruct HC as [[_ ->]|[_ ->]]; auto). destruct (ROW k Hk) as (row & Hrow).
        destruct (DSP k p Sp row Hp HSp Hk SPk Hrow) as (nd' & x & Hnd' & Ex & C). rewrite Hnd in Hnd'. injection Hnd' as <-. destruct C as [[C _]|(_ & f' & b' & l' & r' & C1 & C2 & C3 & C4 & Ex')]; [congruence|].
        rewrite Hl in C1. injection C1 as <-. rewrite Hr in C2. injection C2 as <-. apply G2. exists (row, (1%Z, p)). split; [apply Gd; exists row, p; eauto using POS|]. subst x.
        rewrite Ex. rewrite RL in C3. injection C3 as C3. rewrite RR in C4. injection C4 as C4. assert (A3 := f_equal (fun F => F k) C3). assert (A4 := f_equal (fun F => F k) C4). cbn beta in A3, A4. unfold left_of, right_of in A3, A4. rewrite SPk in A3, A4. cbn in A3, A4.
        rewrite <- A3. destruct HC as [[-> ->]|[-> ->]]; unfold left_of, right_of in HSk; rewrite SPk in HSk; cbn in HSk; [rewrite HSk|apply negb_true_iff in HSk; rewrite HSk]; auto.
    - intros w1 [= <-]. exact Ww.
    - (* the weights *)
      intros k v. cbn [wget]. rewrite Gw. fold (wget w0 k). split.
      + intros [Ho|(Ho & v' & Hv & Ex)].
        * apply WW in Ho as (Hk & nd & (id & S & H1 & H2 & H3 & H4) & ->). split; [exact Hk|]. exists nd. split; [|reflexivity]. exists id, S. auto.
        * apply Gd in Hv as (row & id & Hr & Hp & ->). destruct (ps_pos _ _ _ PO k _ Hp) as (Hk & id' & S & Hin & [= <-] & HSk). apply pairs_elem in Hin as [Hid HS]. split; [exact Hk|].
          destruct (DSP k id S row Hid HS Hk HSk Hr) as (nd & x' & Hnd & Ex' & C). rewrite Ex in Ex'. injection Ex' as <-. destruct C as [[Hl [= ->]]|(_ & ? & ? & ? & ? & _ & _ & _ & _ & C)]; [|discriminate C].
          exists nd. split; [|reflexivity]. exists id, S. auto.
      + intros (Hk & nd & (id & S & Hnd & Hl & HS & HSk) & ->). assert (Lid := lookup_lt_Some _ _ _ Hnd). assert (HS0 := RY id S Lid HS). destruct (decide (id < length T)) as [Lt|Ge].
        * left. apply WW. split; [exact Hk|]. exists nd. split; [|reflexivity]. exists id, S. split; [subst T1; now rewrite lookup_app_l in Hnd|auto].
        * right. split.
          -- destruct (wget w0 k) as [v|] eqn:Ew; [|reflexivity]. apply WW in Ew as (_ & nd' & Hin & _). rewrite (FR k nd' id S Hk Hin ltac:(lia) HS0) in HSk. discriminate HSk.
          -- destruct (ROW k Hk) as (row & Hrow). exists (row, (1%Z, id)). split; [apply Gd; exists row, id; eauto using POS with lia|].
             destruct (DSP k id S row ltac:(lia) HS0 Hk HSk Hrow) as (nd' & x & Hnd' & Ex & C). rewrite Hnd in Hnd'. injection Hnd' as <-. destruct C as [[_ ->]|[C _]]; [exact Ex|congruence].
    - (* rows of leaves are in no open node *)
      intros k nd id S Hk (j & Sj & Hj & Hl & HSj & Hjk) Hid HS. destruct (S k) eqn:ESk; [exfalso|reflexivity].
      destruct (KID id S Hid HS) as (p & ndp & Sp & f & b & l & r & Hp & Hnd & Hnl & _ & _ & HSp & HC & _ & _).
      assert (SPk : Sp k = true) by (apply (SUB Sp f b k); destruct HC as [[_ ->]|[_ ->]]; auto). assert (Lj := lookup_lt_Some _ _ _ Hj). assert (HSj0 := RY j Sj Lj HSj).
      destruct (decide (j < length T)) as [Lt|Ge].
      + assert (Hj0 : T !! j = Some nd) by (subst T1; now rewrite lookup_app_l in Hj). rewrite (FR k nd p Sp Hk ltac:(exists j, Sj; auto) Hp HSp) in SPk. discriminate SPk.
      + pose proof (POS k j Sj ltac:(lia) HSj0 Hk Hjk) as P1. pose proof (POS k p Sp Hp HSp Hk SPk) as P2. rewrite P1 in P2. injection P2 as ->. congruence.
    - (* every row is somewhere *)
      intros k Hk. destruct (CV k Hk) as [(nd & j & S & H1 & H2 & H3 & H4)|(id & S & Hid & HS & HSk)].
      + left. exists nd, j, S. auto.
      + destruct (ROW k Hk) as (row & Hrow). destruct (DSP k id S row Hid HS Hk HSk Hrow) as (nd & x & Hnd & Ex & C). destruct C as [[Hl _]|(Hl & f & b & l & r & C1 & C2 & C3 & C4 & _)].
        * left. exists nd, id, S. auto.
        * right. assert (KB : forall c, child nd c -> length T1 <= c) by (intros c Hc; pose proof (md_kid _ _ _ _ _ _ _ _ _ M1 id nd c Hid Hnd Hc) as Y; cbn [length] in Y; lia).
          destruct (p_bin me k f <=? b) eqn:Eb'.
          -- exists l, (left_of me S f b). split; [apply KB; split; auto|]. split; [exact C3|]. unfold left_of. now rewrite HSk, Eb'.
          -- exists r, (right_of me S f b). split; [apply KB; split; auto|]. split; [exact C4|]. unfold right_of. now rewrite HSk, Eb'.
    - destruct RT as (S & R1 & R2 & R3). exists S. split; [now apply RX|]. split; [now apply lookup_app_l_Some|exact R3].
  Qed.

  (** ** All levels *)
  Lemma levels_run : forall left lv st queue pos RS DS, level lv st queue pos RS DS -> lv + left = d + 1 -> (left = 0 -> queue = []) ->
    exists st' lv' RS' DS' pos', f_local_levels cfg gh left st queue pos = Ok st' /\ level lv' st' [] pos' RS' DS' /\ (0 < left -> queue <> [] -> is_Some (t_weights st')) /\ (is_Some (t_weights st) -> is_Some (t_weights st')).
  Proof.
    induction left as [|left IH]; intros lv st queue pos RS DS L EL EQ.
    { rewrite (EQ eq_refl) in *. exists st, lv, RS, DS, pos. split; [reflexivity|]. split; [exact L|]. split; [lia|auto]. }
    cbn [f_local_levels]. destruct queue as [|nd queue]; [exists st, lv, RS, DS, pos; split; [reflexivity|]; split; [exact L|]; split; [easy|auto]|].
    destruct (level_step lv st _ pos RS DS L ltac:(lia)) as (dbn & bs & splits & st1 & newq & th & r2 & st2 & RS' & DS' & E1 & E2 & E3 & E4 & E5 & L' & NQ).
    rewrite E1. cbn [mbind res_bind]. rewrite E2. cbn [mbind res_bind]. rewrite E3. cbn [mbind res_bind].
    assert (EB : (lv =? d) = match left with 0 => true | _ => false end) by (destruct left; [apply Nat.eqb_eq; lia|apply Nat.eqb_neq; lia]).
    rewrite <- EB, E4. cbn [mbind res_bind fst snd]. rewrite E5. cbn [mbind res_bind redispatch_merge fst snd].
    destruct (IH (lv + 1) st2 newq r2 (RS ++ RS') (DS ++ DS') L' ltac:(lia)) as (st' & lv' & RS2 & DS2 & pos2 & E6 & L2 & K1 & K2); [intros ->; apply NQ; lia|].
    exists st', lv', RS2, DS2, pos2. split; [exact E6|]. split; [exact L2|].
    assert (X : is_Some (t_weights st2)).
    { unfold redispatch_local in E5. repeat (match type of E5 with (mbind _ ?e = _) => destruct e as [?|?]; cbn [mbind res_bind] in E5; [|discriminate E5] end). injection E5 as _ _ <-. cbn. eauto. }
    auto.
  Qed.

  (** ** The root *)
  Lemma f_sums : exists g h, f_grad_hess_sum gh = Ok (g, h) /\ near g n (sum_if (fun _ => true) vg U) /\ near h n (sum_if (fun _ => true) vh U).
  Proof.
    unfold f_grad_hess_sum. rewrite (reduce_some (fun x y => (fround (x.1 + y.1)%Qc, fround (x.2 + y.2)%Qc))) by reflexivity.
    assert (PM : Permutation (dt_keys gh) U) by (apply NoDup_Permutation; [exact Wgh|exact ND|exact Kgh]).
    assert (EV : map snd (dt_data gh) = map (fun k => (vg k, vh k)) (dt_keys gh)).
    { unfold dt_keys. change (fmap fst (dt_data gh)) with (map fst (dt_data gh)). rewrite map_map. apply map_ext_in. intros [k c] Hk. cbn. apply Vgh. now apply elem_of_list_In. }
    rewrite EV. rewrite <- (sum_if_perm _ vg _ _ PM), <- (sum_if_perm _ vh _ _ PM), <- (Permutation_length PM).
    assert (VV : forall k, k ∈ dt_keys gh -> near (vg k) 1 (vg k) /\ near (vh k) 1 (vh k)).
    { intros k Hk. apply Kgh in Hk. destruct (V k Hk) as (A1 & A2 & A3 & A4 & A5). split; apply near_double; auto. apply qabs_le. clear - A4 A5. split; qlra. }
    pose proof (Permutation_length PM) as LP. destruct (dt_keys gh) as [|k0 ks] eqn:Ek; [exfalso; cbn in LP; clear - LP n1; lia|]. clear LP PM EV Ek.
    assert (G : forall ks a b L qa qb, (forall k, k ∈ ks -> near (vg k) 1 (vg k) /\ near (vh k) 1 (vh k)) -> near a L qa -> near b L qb ->
      let r := fold_left (fun x y : Qc * Qc => (fround (x.1 + y.1)%Qc, fround (x.2 + y.2)%Qc)) (map (fun k => (vg k, vh k)) ks) (a, b) in
      near r.1 (L + Z.of_nat (length ks)) (qa + sum_if (fun _ => true) vg ks)%Qc /\ near r.2 (L + Z.of_nat (length ks)) (qb + sum_if (fun _ => true) vh ks)%Qc).
    { clear. induction ks as [|k ks IH]; intros a b L qa qb HV A B; cbn [map fold_left length].
      - cbv zeta. cbn [fst snd]. rewrite Z.add_0_r. replace (sum_if (fun _ : K => true) vg []) with 0%Qc by reflexivity. replace (sum_if (fun _ : K => true) vh []) with 0%Qc by reflexivity. now rewrite !Qcplus_0_r.
      - cbn [fst snd]. destruct (HV k ltac:(left)) as [V1 V2]. specialize (IH (fround (a + vg k)%Qc) (fround (b + vh k)%Qc) (L + 1)%Z (qa + vg k)%Qc (qb + vh k)%Qc).
        cbv zeta in IH. destruct IH as [I1 I2]; [intros k' Hk'; apply HV; now right|exact (near_step _ _ _ _ _ _ _ _ A V1 (or_introl (conj eq_refl eq_refl)))|exact (near_step _ _ _ _ _ _ _ _ B V2 (or_introl (conj eq_refl eq_refl)))|].
        cbv zeta. rewrite !sum_if_cons. rewrite !Qcplus_assoc. replace (L + Z.of_nat (Datatypes.S (length ks)))%Z with (L + 1 + Z.of_nat (length ks))%Z by lia. auto. }
    cbn [map fold1]. destruct (VV k0 ltac:(left)) as [V1 V2]. destruct (G ks (vg k0) (vh k0) 1%Z _ _ ltac:(intros k Hk; apply VV; now right) V1 V2) as [G1 G2].
    destruct (fold_left _ _ _) as [g h]. cbn [fst snd] in G1, G2. exists g, h. split; [reflexivity|]. rewrite !sum_if_cons. cbn [length]. replace (Z.of_nat (Datatypes.S (length ks))) with (1 + Z.of_nat (length ks))%Z by lia. auto.
  Qed.

  (** ** The whole tree *)
  Lemma f_fit : c_depth cfg = d + 1 -> exists st rows levels w, f_local_fit cfg gh = Ok st /\
    near_tree U me vg vh lam least E W D d (c_points cfg) (t_nodes st) (t_mask st) rows levels /\ t_weights st = Some w /\ dt_wf w /\
    (forall k, k ∈ dt_keys w <-> k ∈ U) /\ (forall k v, (k, v) ∈ dt_data w <-> k ∈ U /\ exists nd, in_leaf (t_nodes st) rows k nd /\ v = n_weight nd).
  Proof.
    intros ED. destruct f_sums as (g & h & EG & Ng & Nh). pose proof nm as NM.
    assert (Ng3 : near g (3 * n * (Z.of_nat 0 + 1)) (sum_if (fun _ => true) vg U)) by (eapply near_mono; [exact Ng|lia]).
    assert (Nh3 : near h (3 * n * (Z.of_nat 0 + 1)) (sum_if (fun _ => true) vh U)) by (eapply near_mono; [exact Nh|lia]).
    destruct (weight_at 0 g h (fun _ => true) ltac:(lia) Ng3 Nh3) as (w & Ew & _).
    destruct (dt_mapValues_rel (fun _ => Ok (DGo 1 0)) (fun _ _ (v : disp) => v = DGo 1 0) (c_data cfg) (po_wf _ _ _ PK)) as (pos & Epos & Wpos & Kpos & Gpos).
    { intros k v _. eauto. }
    assert (GP : forall k v, tget pos k = Some v <-> k ∈ U /\ v = DGo 1 0).
    { intros k v. split.
      - intros Hv. specialize (Gpos k). rewrite Hv in Gpos. destruct (tget (c_data cfg) k) eqn:Ek; [|easy]. split; [|exact Gpos]. apply (po_keys _ _ _ PK). eapply tget_key; eauto.
      - intros [Hk ->]. apply (po_keys _ _ _ PK), tget_is_Some in Hk as (r & Hr). specialize (Gpos k). rewrite Hr in Gpos. destruct (tget pos k); [now subst|easy]. }
    assert (L0 : level 0 (GState [] [] 0 None []) [Node 0 GuestSite None w false g h None None] pos [fun _ => true] [0]).
    { constructor; cbn [t_nodes t_mask t_num t_weights t_imp length].
      - constructor.
        + intros id nd Hid. now rewrite lookup_nil in Hid.
        + cbn. lia.
        + intros [|j] nd Hj; [|apply lookup_lt_Some in Hj; cbn in Hj; lia]. cbn in Hj. injection Hj as <-. exists w, g, h, (fun _ => true). split; [reflexivity|]. split; [reflexivity|]. split; [reflexivity|]. exact (conj Ng3 (conj Nh3 Ew)).
        + intros j nd Hj. now rewrite lookup_nil in Hj.
        + cbn. intros id Hid. lia.
        + intros p nd id _ Hp. now rewrite lookup_nil in Hp.
      - constructor.
        + exact Wpos.
        + apply pairs_keys.
        + intros k v Hv. apply GP in Hv as [Hk ->]. split; [exact Hk|]. exists 0, (fun _ => true). split; [apply pairs_elem; split; [lia|reflexivity]|auto].
        + intros id S k Hin Hk _. apply pairs_elem in Hin as [_ Hin]. apply GP. split; [exact Hk|]. destruct id; [reflexivity|]. apply lookup_lt_Some in Hin. cbn in Hin. lia.
      - discriminate.
      - intros k v. cbn. split; [discriminate|]. intros (_ & nd & (id & S & Hid & _) & _). now rewrite lookup_nil in Hid.
      - intros k nd id S _ (j & S' & Hj & _). now rewrite lookup_nil in Hj.
      - intros k Hk. right. exists 0, (fun _ => true). split; [lia|auto].
      - exists (fun _ => true). auto. }
    destruct (levels_run (d + 1) 0 _ _ _ _ _ L0 eq_refl ltac:(lia)) as (st & lv & RS & DS & pos' & EL & L & KW & _).
    destruct (KW ltac:(lia) ltac:(easy)) as (w1 & Ew1). destruct L as [M PO WF WW FR CV RT]. destruct st as [T mask num w0 imp]. cbn [t_nodes t_mask t_num t_weights t_imp] in *. subst w0.
    destruct (md_len _ _ _ _ _ _ _ _ _ M) as (L1 & L2 & _). cbn [length] in L1. rewrite !Nat.add_0_r in L1. pose proof (md_done _ _ _ _ _ _ _ _ _ M) as DN.
    assert (IDJ : forall j nd, T !! j = Some nd -> n_id nd = j) by (intros j nd Hj; apply (DN j nd Hj)).
    assert (NDT : NoDup (map n_id T)).
    { apply NoDup_alt. intros a b id Ha Hb. rewrite map_lookup in Ha, Hb. destruct (T !! a) as [x|] eqn:Ex, (T !! b) as [y|] eqn:Ey; try discriminate. cbn in Ha, Hb. injection Ha as Ha. injection Hb as Hb.
      rewrite (IDJ _ _ Ex) in Ha. rewrite (IDJ _ _ Ey) in Hb. congruence. }
    set (selg := fun nd => negb (n_leaf nd) && bool_decide (n_site nd = GuestSite)).
    destruct (convert_fold (fun m nd => if n_leaf nd then Ok m else match n_site nd with GuestSite => convert_node (c_points cfg) m nd | _ => Ok m end) selg (c_points cfg)) with (T := T) (m := mask)
      as (gm & Egm & _ & _ & Ggm).
    { intros q nd. unfold selg. destruct (n_leaf nd); [reflexivity|]. destruct (n_site nd); [rewrite bool_decide_eq_true_2 by reflexivity|rewrite bool_decide_eq_false_2 by discriminate]; reflexivity. }
    { exact NDT. }
    { intros nd Hn Hs. unfold selg in Hs. apply andb_true_iff in Hs as [Hl Hs]. apply elem_of_list_lookup in Hn as (j & Hj).
      destruct (DN j nd Hj) as (Ej & S & lv' & _ & _ & _ & _ & [[C _]|(_ & _ & f & b & l & r & C3 & C4 & C5 & _)]); [now rewrite C in Hl|].
      destruct (cands_good U me cfg S f b PK LF (proj1 (proj2 C5))) as (pts & Hp & Lb). exists f, b, pts. rewrite Ej. auto. }
    exists (GState T gm num (Some w1) imp), RS, DS, w1. split.
    { unfold f_local_fit. rewrite EG. cbn [mbind res_bind fst snd]. rewrite Ew. cbn [mbind res_bind]. rewrite Epos. cbn [mbind res_bind]. rewrite ED, EL. cbn [mbind res_bind t_nodes t_mask t_num t_weights t_imp].
      unfold guest_convert. rewrite Egm. reflexivity. }
    cbn [t_nodes t_mask t_num t_weights t_imp]. split.
    { constructor; [exact RT|lia|]. intros j nd S lvl Hj HS HL. destruct (DN j nd Hj) as (Ej & S' & lv' & HS' & HL' & LE & SA & C). rewrite HS in HS'. injection HS' as <-. rewrite HL in HL'. injection HL' as <-.
      split; [exact Ej|]. split; [exact (stats_near S lvl nd LE SA)|]. destruct C as [[C1 C2]|(C1 & C2 & f & b & l & r & C3 & C4 & C5 & C6 & C7 & C8 & C9 & C10 & C11 & C12)]; (split; intros Q; try congruence; try exact C2).
      destruct (cands_good U me cfg S f b PK LF (proj1 (proj2 C5))) as (pts & Hp & Lb). apply lookup_lt_is_Some in Lb as (x & Hx). exists f, b, pts, x, l, r, (left_of me S f b), (right_of me S f b).
      split; [exact C3|]. split; [exact Hp|]. split; [exact Hx|]. split; [|auto 12]. rewrite <- Ej. apply (Ggm nd f b pts x); auto; [eapply elem_of_list_lookup_2; exact Hj| |now rewrite Ej].
      unfold selg. rewrite C1, C2. now rewrite bool_decide_eq_true_2. }
    split; [reflexivity|]. assert (W1 := WF w1 eq_refl). split; [exact W1|]. split.
    - intros k. split.
      + intros Hk. apply tget_is_Some in Hk as (v & Hv). apply (WW k v) in Hv. apply Hv.
      + intros Hk. destruct (CV k Hk) as [(nd & Hin)|(id & S & Hid & HS & _)]; [|apply lookup_lt_Some in HS; lia].
        assert (X : wget (Some w1) k = Some (n_weight nd)) by (apply WW; eauto). cbn in X. eapply tget_key. exact X.
    - intros k v. rewrite <- tget_elem by exact W1. exact (WW k v).
  Qed.
End Levels.
