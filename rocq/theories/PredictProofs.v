(** The prediction protocol walks the tree. *)
From Verif Require Export PredictModel PredictSpec TreeBatch.
Local Open Scope nat_scope.

(** Entry [id] of the list, with the masks of the guest and the hosts, is the root of the tree [t]. *)
Inductive prepr (nh : nat) (sname : nat -> site) (T : list node) (gm : dict nat mval) (hm : nat -> dict nat mval) : nat -> ptree -> Prop :=
| prepr_leaf id nd : T !! id = Some nd -> n_leaf nd = true -> n_site nd = GuestSite -> prepr nh sname T gm hm id (PL (n_weight nd))
| prepr_node id nd own f v l r li ri : T !! id = Some nd -> n_leaf nd = false ->
    match own with None => n_site nd = GuestSite /\ dict_get id gm = Some v | Some i => i < nh /\ n_site nd = sname i /\ dict_get id (hm i) = Some v end ->
    n_fid nd = Some f -> n_left nd = Some li -> n_right nd = Some ri -> id < li -> id < ri ->
    prepr nh sname T gm hm li l -> prepr nh sname T gm hm ri r -> prepr nh sname T gm hm id (PN own f (mnum v) l r).

(** Walking down the guest's nodes, or those of host [i]. *)
Fixpoint gdown (x : option nat -> nat -> Qc) (t : ptree) : ptree :=
  match t with PN None f thr l r => if qleb (x None f) thr then gdown x l else gdown x r | _ => t end.
Fixpoint hdown (i : nat) (x : option nat -> nat -> Qc) (t : ptree) : ptree :=
  match t with
  | PN (Some j) f thr l r => if decide (j = i) then (if qleb (x (Some j) f) thr then hdown i x l else hdown i x r) else t
  | _ => t
  end.
Lemma gdown_walk x t : pwalk x (gdown x t) = pwalk x t.
Proof. induction t as [w|[j|] f thr l IHl r IHr]; cbn; [reflexivity..|]. destruct (qleb _ _); auto. Qed.
Lemma hdown_walk i x t : pwalk x (hdown i x t) = pwalk x t.
Proof. induction t as [w|[j|] f thr l IHl r IHr]; cbn; [reflexivity| |reflexivity]. destruct (decide _); [|reflexivity]. destruct (qleb _ _); auto. Qed.
Lemma gdown_depth x t : pdepth (gdown x t) <= pdepth t.
Proof. induction t as [w|[j|] f thr l IHl r IHr]; cbn; [lia..|]. destruct (qleb _ _); lia. Qed.
Lemma hdown_depth i x t : pdepth (hdown i x t) <= pdepth t.
Proof. induction t as [w|[j|] f thr l IHl r IHr]; cbn; [lia| |lia]. destruct (decide _); [|cbn; lia]. destruct (qleb _ _); lia. Qed.
Lemma hdown_less i x f thr l r : pdepth (hdown i x (PN (Some i) f thr l r)) < pdepth (PN (Some i) f thr l r).
Proof. cbn. rewrite decide_True by reflexivity. pose proof (hdown_depth i x l). pose proof (hdown_depth i x r). destruct (qleb _ _); lia. Qed.
Lemma gdown_shape x t : match gdown x t with PN None _ _ _ _ => False | _ => True end.
Proof. induction t as [w|[j|] f thr l IHl r IHr]; cbn; auto. destruct (qleb _ _); auto. Qed.
Lemma gdown_only x t : guest_only x t <-> match gdown x t with PL _ => True | _ => False end.
Proof. induction t as [w|[j|] f thr l IHl r IHr]; cbn; [tauto..|]. destruct (qleb _ _); auto. Qed.

Section Walk.
  Context (nh : nat) (sname : nat -> site) (T : list node) (gm : dict nat mval) (hm : nat -> dict nat mval).
  Context (names : forall i, i < nh -> sname i <> GuestSite) (inj : forall i j, i < nh -> j < nh -> sname i = sname j -> i = j).
  Local Notation prepr := (prepr nh sname T gm hm).

  Lemma prepr_room id t : prepr id t -> id + pdepth t < length T.
  Proof. induction 1 as [id nd E|id nd own f v l r li ri E]; cbn [pdepth]; [apply lookup_lt_Some in E|]; lia. Qed.

  Lemma list_index_lookup {A} (l : list A) i x : l !! i = Some x -> list_index l i = Ok x.
  Proof. unfold list_index. now intros ->. Qed.

  Lemma next_node_ok id nd own f v l r li ri row x : T !! id = Some nd ->
    n_fid nd = Some f -> n_left nd = Some li -> n_right nd = Some ri ->
    dict_get id (match own with None => gm | Some i => hm i end) = Some v -> (forall f, sv_get row f (zq 0) = x own f) ->
    next_node T (match own with None => gm | Some i => hm i end) row id = Ok (if qleb (x own f) (mnum v) then li else ri) /\
    pwalk x (PN own f (mnum v) l r) = pwalk x (if qleb (x own f) (mnum v) then l else r).
  Proof.
    intros E Ef El Er Em Ex. unfold next_node. rewrite (list_index_lookup _ _ _ E). cbn [mbind res_bind]. rewrite Ef. cbn [the_fid mbind res_bind].
    unfold decode_val. rewrite Em. cbn [mbind res_bind]. rewrite Ex, El, Er. cbn [pwalk]. destruct (qleb _ _); auto.
  Qed.

  Lemma guest_walk_ok x row (X : forall f, sv_get row f (zq 0) = x None f) : forall fuel id t, prepr id t -> pdepth t < fuel ->
    match gdown x t with
    | PL w => guest_walk fuel T gm row id = Ok (PWeight w)
    | PN _ _ _ _ _ => exists nid, guest_walk fuel T gm row id = Ok (PState nid 1) /\ prepr nid (gdown x t)
    end.
  Proof.
    induction fuel as [|fuel IH]; intros id t R L; [lia|]. inversion R as [id' nd E EL ES|id' nd own f v l r li ri E EL EO Ef El Er L1 L2 Rl Rr]; subst.
    - cbn [gdown guest_walk]. rewrite (list_index_lookup _ _ _ E). cbn [mbind res_bind]. now rewrite ES, EL.
    - cbn [pdepth] in L. destruct own as [i|].
      + destruct EO as (Hi & ES & EM). cbn [gdown guest_walk]. exists id. rewrite (list_index_lookup _ _ _ E). cbn [mbind res_bind]. split; [|exact R].
        rewrite ES. pose proof (names i Hi). destruct (sname i); [congruence|reflexivity].
      + destruct EO as (ES & EM). destruct (next_node_ok id nd None f v l r li ri row x E Ef El Er EM X) as [N _].
        cbn [guest_walk]. rewrite (list_index_lookup _ _ _ E). cbn [mbind res_bind]. rewrite ES, EL, N. cbn [mbind res_bind].
        cbn [gdown]. destruct (qleb _ _); apply IH; auto; lia.
  Qed.

  Lemma host_loop_ok i x row (Hi : i < nh) (X : forall f, sv_get row f (zq 0) = x (Some i) f) : forall fuel id t, prepr id t -> pdepth t < fuel ->
    exists nid, host_loop fuel (sname i) T (hm i) row id = Ok nid /\ prepr nid (hdown i x t).
  Proof.
    induction fuel as [|fuel IH]; intros id t R L; [lia|]. inversion R as [id' nd E EL ES|id' nd own f v l r li ri E EL EO Ef El Er L1 L2 Rl Rr]; subst.
    - cbn [hdown host_loop]. rewrite (list_index_lookup _ _ _ E). cbn [mbind res_bind]. rewrite decide_False by (rewrite ES; intros Q; now apply (names i Hi)). eauto.
    - cbn [pdepth] in L. cbn [host_loop]. rewrite (list_index_lookup _ _ _ E). cbn [mbind res_bind]. destruct own as [j|].
      + destruct EO as (Hj & ES & EM). cbn [hdown]. destruct (decide (j = i)) as [->|NE].
        * rewrite decide_True by exact ES. destruct (next_node_ok id nd (Some i) f v l r li ri row x E Ef El Er EM X) as [-> _]. cbn [mbind res_bind].
          destruct (qleb _ _); apply IH; auto; lia.
        * rewrite decide_False; [eauto|]. rewrite ES. intros Q. apply NE, inj; auto.
      + destruct EO as (ES & EM). cbn [hdown]. rewrite decide_False by (rewrite ES; intros Q; now apply (names i Hi)). eauto.
  Qed.

  (** One host's reply for a row that waits at a host's node. *)
  Lemma host_walk_ok i x row s t : i < nh -> (forall f, sv_get row f (zq 0) = x (Some i) f) -> prepr s.1 t -> s.2 = 1%Z ->
    match t with
    | PN (Some j) _ _ _ _ => exists s', host_walk (S (length T)) (sname i) T (hm i) s row = Ok s' /\ prepr s'.1 (if decide (j = i) then hdown i x t else t) /\
        s'.2 = (if decide (j = i) then 0%Z else 1%Z) /\ (j <> i -> s' = s)
    | _ => True
    end.
  Proof.
    intros Hi X R ST. destruct t as [w|[j|] f thr l r]; [exact I| |exact I]. unfold host_walk. pose proof (prepr_room _ _ R) as RM.
    inversion R as [|id' nd own f' v l' r' li ri E EL EO Ef El Er L1 L2 Rl Rr]; subst. destruct EO as (Hj & ES & EM).
    rewrite (list_index_lookup _ _ _ E). cbn [mbind res_bind]. destruct (decide (j = i)) as [->|NE].
    - rewrite decide_True by exact ES. destruct (host_loop_ok i x row Hi X (S (length T)) s.1 _ R) as (nid & -> & R'); [lia|].
      cbn [mbind res_bind]. exists (nid, 0%Z). split; [reflexivity|]. split; [exact R'|]. split; [reflexivity|congruence].
    - rewrite decide_False by (rewrite ES; intros Q; apply NE, inj; auto). exists s. auto.
  Qed.
End Walk.

Lemma join_some {A B X} (R : A -> B -> X -> Prop) (a : option A) (b : option B) (x : option X) :
  match a, b, x with Some v, Some w, Some y => R v w y | Some _, Some _, None => False | _, _, Some _ => False | _, _, None => True end ->
  is_Some x <-> is_Some a /\ is_Some b.
Proof.
  destruct a, b, x; intros H; try contradiction; split; intros G; try (split; eexists; reflexivity); try (eexists; reflexivity);
    try (destruct G as [G1 G2]; destruct G1 as [? G1]; destruct G2 as [? G2]; discriminate); destruct G as [? G]; discriminate.
Qed.

Section Protocol.
  Context {K : Type} `{EqDecision K} {C E : Type} (nh : nat) (sname : nat -> site) (T : list node) (gm : dict nat mval) (hm : nat -> dict nat mval).
  Context (names : forall i, i < nh -> sname i <> GuestSite) (inj : forall i j, i < nh -> j < nh -> sname i = sname j -> i = j).
  Context (gd : dtable K (dict nat Qc)) (hd : nat -> dtable K (dict nat Qc)) (Wg : dt_wf gd) (Wh : forall i, i < nh -> dt_wf (hd i)).
  Local Notation prepr := (prepr nh sname T gm hm).
  Local Notation msg := (msg K C E).

  (** The joined row: a feature that is not stored is 0. *)
  Definition jrow (k : K) (own : option nat) (f : nat) : Qc :=
    match tget (match own with None => gd | Some i => hd i end) k with Some row => sv_get row f (zq 0) | None => zq 0 end.
  Definition everywhere (k : K) : Prop := forall i, i < nh -> is_Some (tget (hd i) k).

  (** Every waiting row sits at an entry that stands for its tree. *)
  Definition at_tree (data : dtable K (nat * Z)) (P : K -> ptree) : Prop := dt_wf data /\ forall k s, tget data k = Some s -> is_Some (tget gd k) /\ prepr s.1 (P k).

  Lemma predict_local_ok data P result : at_tree data P -> (forall r, result = Some r -> dt_wf r) ->
    exists res rest, predict_local T gm gd data result = Ok (res, rest) /\ dt_wf res /\ dt_wf rest /\
      (forall k v, tget res k = Some v <-> match result with Some r => tget r k | None => None end = Some v \/
         (match result with Some r => tget r k | None => None end = None /\ is_Some (tget data k) /\ gdown (jrow k) (P k) = PL v)) /\
      (forall k s, tget rest k = Some s -> is_Some (tget data k) /\ s.2 = 1%Z /\ prepr s.1 (gdown (jrow k) (P k)) /\ exists i f thr l r, gdown (jrow k) (P k) = PN (Some i) f thr l r) /\
      (forall k, is_Some (tget data k) -> tget rest k = None -> exists v, gdown (jrow k) (P k) = PL v).
  Proof.
    intros [Wd AT] Wr. unfold predict_local.
    destruct (dt_join_rel (fun s row => guest_walk (S (length T)) T gm row s.1)
      (fun k (s : nat * Z) (row : dict nat Qc) v => match v with PWeight w => gdown (jrow k) (P k) = PL w
        | PState n t => t = 1%Z /\ prepr n (gdown (jrow k) (P k)) /\ exists i f thr l r, gdown (jrow k) (P k) = PN (Some i) f thr l r end) data gd Wg) as (v & Ev & Wv & _ & Gv).
    { intros k s row Hs Hrow. destruct (AT k s Hs) as (_ & R). pose proof (prepr_room _ _ _ _ _ _ _ R).
      pose proof (guest_walk_ok nh sname T gm hm names (jrow k) row ltac:(intros f; unfold jrow; now rewrite Hrow) (S (length T)) s.1 (P k) R ltac:(lia)) as GW.
      pose proof (gdown_shape (jrow k) (P k)) as SH. destruct (gdown (jrow k) (P k)) as [w|[i|] f thr l r]; [exists (PWeight w); split; [exact GW|reflexivity]| |contradiction].
      destruct GW as (nid & -> & R'). eexists. split; [reflexivity|]. cbn. eauto 10. }
    rewrite Ev. cbn [mbind res_bind].
    destruct (dt_filter_rel (fun _ x => is_weight x) v Wv) as (lf & Elf & Wlf & Glf). rewrite Elf. cbn [mbind res_bind].
    destruct (dt_mapValues_rel weight_of (fun _ x w => x = PWeight w) lf Wlf) as (lw & Elw & Wlw & _ & Glw).
    { intros k x Hx. rewrite Glf in Hx. destruct (tget v k) as [[w|n t]|]; [| |discriminate]; cbn in Hx; [|discriminate]. injection Hx as <-. exists w. auto. }
    rewrite Elw. cbn [mbind res_bind].
    assert (RX : exists res, match result with None => Ok lw | Some r => dt_union (fun a _ => a) r lw end = Ok res /\ dt_wf res /\
      forall k, tget res k = match (match result with Some r => tget r k | None => None end) with Some y => Some y | None => tget lw k end).
    { destruct result as [r|]; [|exists lw; auto]. destruct (dt_union_rel r lw (Wr r eq_refl) Wlw) as (w' & A & B & D). eauto. }
    destruct RX as (res & Er & Wres & Gres). rewrite Er. cbn [mbind res_bind].
    destruct (dt_subtract_rel v lf Wv) as (rs & Ers & Wrs & Grs). rewrite Ers. cbn [mbind res_bind].
    assert (RS : forall k, tget rs k = match tget v k with Some (PState n t) => Some (PState n t) | _ => None end).
    { intros k. rewrite Grs, Glf. destruct (tget v k) as [[w|n t]|]; reflexivity. }
    destruct (dt_mapValues_rel state_of (fun _ x s => x = PState s.1 s.2) rs Wrs) as (rest & Erest & Wrest & _ & Grest).
    { intros k x Hx. rewrite RS in Hx. destruct (tget v k) as [[w|n t]|]; [discriminate| |discriminate]. injection Hx as <-. exists (n, t). auto. }
    rewrite Erest. cbn [mbind res_bind]. exists res, rest. split; [reflexivity|]. split; [exact Wres|]. split; [exact Wrest|].
    assert (LW : forall k w, tget lw k = Some w <-> tget v k = Some (PWeight w)).
    { intros k w. specialize (Glw k). rewrite Glf in Glw. destruct (tget v k) as [[w'|n t]|]; cbn in Glw; destruct (tget lw k) as [y|]; try contradiction; try (split; discriminate).
      injection Glw as <-. split; congruence. }
    assert (RT : forall k s, tget rest k = Some s <-> tget v k = Some (PState s.1 s.2)).
    { intros k s. specialize (Grest k). rewrite RS in Grest. destruct (tget v k) as [[w'|n t]|]; destruct (tget rest k) as [[y1 y2]|]; try contradiction; try (split; discriminate).
      cbn in Grest. injection Grest as <- <-. destruct s. cbn. split; congruence. }
    assert (DV : forall k, is_Some (tget data k) <-> is_Some (tget v k)).
    { intros k. specialize (Gv k). split.
      - intros [s Hs]. rewrite Hs in Gv. destruct (AT k s Hs) as ([row Hrow] & _). rewrite Hrow in Gv. destruct (tget v k); [eauto|contradiction].
      - intros [y Hy]. rewrite Hy in Gv. destruct (tget data k); [eauto|destruct (tget gd k); contradiction]. }
    assert (GVV : forall k y, tget v k = Some y -> match y with PWeight w => gdown (jrow k) (P k) = PL w
        | PState n t => t = 1%Z /\ prepr n (gdown (jrow k) (P k)) /\ exists i f thr l r, gdown (jrow k) (P k) = PN (Some i) f thr l r end).
    { intros k y Hy. specialize (Gv k). rewrite Hy in Gv. destruct (tget data k); [|destruct (tget gd k); contradiction]. destruct (tget gd k); [exact Gv|contradiction]. }
    split; [|split].
    - intros k y. rewrite Gres. destruct (match result with Some r => tget r k | None => None end) as [z|].
      + split; [auto|]. intros [A|(A & _)]; [exact A|discriminate].
      + rewrite LW, DV. split.
        * intros Hy. right. split; [reflexivity|]. split; [eauto|]. exact (GVV _ _ Hy).
        * intros [A|(_ & [z Hz] & A)]; [discriminate|]. rewrite Hz. specialize (GVV _ _ Hz). destruct z as [w|n t]; [congruence|]. destruct GVV as (_ & _ & i & f & thr & l & r & B). congruence.
    - intros k s Hs. apply RT in Hs. split; [apply DV; eauto|]. exact (GVV _ _ Hs).
    - intros k Hk Hn. apply DV in Hk as [y Hy]. pose proof (GVV _ _ Hy) as G. destruct y as [w|n t]; [eauto|]. exfalso.
      assert (X : tget rest k = Some (n, t)) by (apply RT; exact Hy). congruence.
  Qed.

  (** The hosts' answers, jrow one after the other. *)
  Definition reply (i : nat) (rest ans : dtable K (nat * Z)) (P : K -> ptree) : Prop :=
    dt_wf ans /\ (forall k, is_Some (tget ans k) <-> is_Some (tget rest k) /\ is_Some (tget (hd i) k)) /\
    forall k s s', tget rest k = Some s -> tget ans k = Some s' ->
      match P k with PN (Some j) _ _ _ _ => prepr s'.1 (if decide (j = i) then hdown i (jrow k) (P k) else P k) /\ s'.2 = (if decide (j = i) then 0%Z else 1%Z) | _ => False end.

  Lemma host_reply i rest P : i < nh -> dt_wf rest ->
    (forall k s, tget rest k = Some s -> s.2 = 1%Z /\ prepr s.1 (P k) /\ exists j f thr l r, P k = PN (Some j) f thr l r) ->
    exists ans, dt_join (host_walk (S (length T)) (sname i) T (hm i)) rest (hd i) = Ok ans /\ reply i rest ans P.
  Proof.
    intros Hi Wr HR.
    destruct (dt_join_rel (host_walk (S (length T)) (sname i) T (hm i)) (fun k (s : nat * Z) (row : dict nat Qc) s' =>
      match P k with PN (Some j) _ _ _ _ => prepr s'.1 (if decide (j = i) then hdown i (jrow k) (P k) else P k) /\ s'.2 = (if decide (j = i) then 0%Z else 1%Z) | _ => False end) rest (hd i) (Wh i Hi))
      as (ans & Ea & Wa & _ & Ga).
    { intros k s row Hs Hrow. destruct (HR k s Hs) as (S1 & R & j & f & thr & l & r & EP).
      pose proof (host_walk_ok nh sname T gm hm names inj i (jrow k) row s (P k) Hi ltac:(intros g; unfold jrow; now rewrite Hrow) R S1) as HW. rewrite EP in *.
      destruct HW as (s' & -> & R' & S' & _). eauto. }
    exists ans. split; [exact Ea|]. split; [exact Wa|]. split.
    - intros k. exact (join_some _ _ _ _ (Ga k)).
    - intros k s s' Hs Hs'. specialize (Ga k). rewrite Hs, Hs' in Ga. destruct (tget (hd i) k); [exact Ga|contradiction].
  Qed.

  Definition moved (k : K) (t : ptree) : ptree := match t with PN (Some j) _ _ _ _ => hdown j (jrow k) t | _ => t end.

  (** After the first [m] hosts. *)
  Lemma replies_merge rest P (ans : nat -> dtable K (nat * Z)) : dt_wf rest ->
    (forall k s, tget rest k = Some s -> s.2 = 1%Z /\ prepr s.1 (P k) /\ exists j f thr l r, P k = PN (Some j) f thr l r /\ j < nh) ->
    (forall i, i < nh -> reply i rest (ans i) P) -> forall m, m <= nh -> exists data, predict_merge rest (map ans (seq 0 m)) = Ok data /\ dt_wf data /\
      (forall k, is_Some (tget data k) <-> is_Some (tget rest k) /\ forall i, i < m -> is_Some (tget (hd i) k)) /\
      forall k s, tget data k = Some s -> match P k with PN (Some j) _ _ _ _ => if decide (j < m) then s.2 = 0%Z /\ prepr s.1 (moved k (P k)) else s.2 = 1%Z /\ prepr s.1 (P k) | _ => False end.
  Proof.
    intros Wr HR HA. induction m as [|m IH]; intros Hm.
    - exists rest. split; [reflexivity|]. split; [exact Wr|]. split; [intros k; split; [intros A; split; [exact A|lia]|now intros [A _]]|].
      intros k s Hs. destruct (HR k s Hs) as (S1 & R & j & f & thr & l & r & EP & _). rewrite EP in *. rewrite decide_False by lia. auto.
    - destruct IH as (data & Ed & Wd & Kd & Gd); [lia|]. rewrite seq_S, map_app. cbn [map plus]. unfold predict_merge in *. rewrite foldM_app, Ed. cbn [foldM].
      destruct (HA m) as (Wa & Ka & Va); [lia|].
      destruct (dt_join_rel pick_state (fun _ a b s => s = if (a.2 =? 0)%Z then a else b) data (ans m) Wa) as (data' & Ed' & Wd' & _ & Gd').
      { intros k a b _ _. unfold pick_state. eauto. }
      rewrite Ed'. exists data'. split; [reflexivity|]. split; [exact Wd'|]. split.
      + intros k. specialize (Gd' k). assert (X : is_Some (tget data' k) <-> is_Some (tget data k) /\ is_Some (tget (ans m) k)).
        { exact (join_some _ _ _ _ Gd'). }
        rewrite X, Kd, Ka. split.
        * intros ((A & B) & _ & D). split; [exact A|]. intros i Hi. destruct (decide (i = m)) as [->|]; [exact D|apply B; lia].
        * intros (A & B). split; [split; [exact A|intros i Hi; apply B; lia]|]. split; [exact A|apply B; lia].
      + intros k s Hs. specialize (Gd' k). rewrite Hs in Gd'. destruct (tget data k) as [a|] eqn:Ea; [|destruct (tget (ans m) k); contradiction].
        destruct (tget (ans m) k) as [b|] eqn:Eb; [|contradiction]. specialize (Gd k a Ea).
        assert (Hrest : is_Some (tget rest k)) by (apply Kd; eauto). destruct Hrest as [s0 Hs0]. specialize (Va k s0 b Hs0 Eb). destruct (HR k s0 Hs0) as (_ & _ & j & f & thr & l & r & EP & _). rewrite EP in *.
        subst s. destruct (decide (j < m)) as [L|L].
        * destruct Gd as [A1 A2]. rewrite decide_True by lia. rewrite A1. cbn. auto.
        * destruct Gd as [A1 A2]. rewrite A1. cbn [Z.eqb]. destruct Va as [B1 B2]. destruct (decide (j = m)) as [->|NE].
          -- rewrite decide_True by lia. auto.
          -- rewrite decide_False by lia. auto.
  Qed.

  (** ** The rounds *)
  Context {R S : Type}.
  Lemma rounds_ok d : forall rounds data P result, d < rounds -> at_tree data P -> (forall r, result = Some r -> dt_wf r) -> (forall k s, tget data k = Some s -> pdepth (P k) <= d) ->
    exists res, @runs msg R S nh _ _ (guest_rounds nh T gm gd rounds data result) (fun i => host_predict (sname i) T (hm i) (hd i) rounds) res (fun _ => tt) /\ dt_wf res /\
      forall k v, tget res k = Some v <-> match result with Some r => tget r k | None => None end = Some v \/
        (match result with Some r => tget r k | None => None end = None /\ is_Some (tget data k) /\ (guest_only (jrow k) (P k) \/ everywhere k) /\ pwalk (jrow k) (P k) = v).
  Proof.
    induction d as [d IH] using lt_wf_ind. intros [|rounds] data P result Hr AT Wr DE; [lia|].
    destruct (predict_local_ok data P result AT Wr) as (res & rest & El & Wres & Wrest & Gres & Grest & Gnone).
    cbn [guest_rounds host_predict]. destruct (dt_count rest =? 0) eqn:EC.
    - assert (NR : forall k, tget rest k = None).
      { intros k. apply tget_None. apply Nat.eqb_eq in EC. unfold dt_count in EC. unfold dt_keys. destruct (dt_data rest); [apply not_elem_of_nil|discriminate]. }
      exists res. split.
      + eapply runs_glift; [exact El|]. cbn [fst snd]. rewrite EC. refine (runs_bcast_as nh as_tag (MTag true) true _ _ _ _ eq_refl _). exact (runs_ret nh res (fun _ => tt)).
      + split; [exact Wres|]. intros k v. rewrite Gres. split; (intros [A|(A & B & D)]; [left; exact A|right]).
        * split; [exact A|]. split; [exact B|]. split; [left; apply gdown_only; now rewrite D|]. rewrite <- gdown_walk, D. reflexivity.
        * split; [exact A|]. split; [exact B|]. destruct (Gnone k B (NR k)) as (w & Ew). destruct D as [_ D]. rewrite <- gdown_walk, Ew in D. cbn in D. now subst.
    - set (P1 := fun k => gdown (jrow k) (P k)).
      assert (HR1 : forall k s, tget rest k = Some s -> s.2 = 1%Z /\ prepr s.1 (P1 k) /\ exists j f thr l r, P1 k = PN (Some j) f thr l r).
      { intros k s Hs. apply Grest in Hs. tauto. }
      assert (HR2 : forall k s, tget rest k = Some s -> s.2 = 1%Z /\ prepr s.1 (P1 k) /\ exists j f thr l r, P1 k = PN (Some j) f thr l r /\ j < nh).
      { intros k s Hs. destruct (HR1 k s Hs) as (A & B & j & f & thr & l & r & EP). split; [exact A|]. split; [exact B|]. exists j, f, thr, l, r. split; [exact EP|].
        rewrite EP in B. inversion B; subst. tauto. }
      assert (DD : forall k s, tget rest k = Some s -> pdepth (moved k (P1 k)) < d).
      { intros k s Hs. destruct (HR1 k s Hs) as (_ & _ & j & f & thr & l & r & EP). destruct (Grest k s Hs) as ([s0 Hs0] & _). specialize (DE k s0 Hs0).
        pose proof (gdown_depth (jrow k) (P k)) as GD. fold (P1 k) in GD. rewrite EP in *. cbn [moved]. pose proof (hdown_less j (jrow k) f thr l r). lia. }
      assert (NE : exists k s, tget rest k = Some s).
      { apply Nat.eqb_neq in EC. unfold dt_count in EC. destruct (dt_data rest) as [|[k s] l] eqn:Ed; [cbn in EC; lia|]. exists k, s. unfold tget. rewrite Ed. cbn. now rewrite decide_True. }
      destruct NE as (k0 & s0 & Hk0). pose proof (DD k0 s0 Hk0) as D0.
      destruct (decide (nh = 0)) as [Z|NZ]. { destruct (HR2 k0 s0 Hk0) as (_ & _ & j & ? & ? & ? & ? & _ & Hj). lia. }
      destruct (fin_choice nh (fun i ans => dt_join (host_walk (Datatypes.S (length T)) (sname i) T (hm i)) rest (hd i) = Ok ans /\ reply i rest ans P1)) as (ans & Hans); [lia| |].
      { intros i Hi. apply host_reply; auto. }
      destruct (replies_merge rest P1 ans Wrest HR2 (fun i Hi => proj2 (Hans i Hi)) nh (Nat.le_refl _)) as (data' & Ed' & Wd' & Kd' & Gd').
      set (P2 := fun k => moved k (P1 k)).
      assert (AT' : at_tree data' P2).
      { split; [exact Wd'|]. intros k s Hs. assert (B : is_Some (tget rest k)) by (apply (Kd' k); eauto). destruct B as [s1 Hs1]. split.
        - destruct (Grest k s1 Hs1) as ([s2 Hs2] & _). exact (proj1 (proj2 AT k s2 Hs2)).
        - specialize (Gd' k s Hs). destruct (HR2 k s1 Hs1) as (_ & _ & j & f & thr & l & r & EP & Hj). unfold P2. rewrite EP in *. rewrite decide_True in Gd' by exact Hj. tauto. }
      destruct (IH (pred d) ltac:(lia) rounds data' P2 (Some res)) as (fin & RU & Wf & Gf); [lia|exact AT'|intros r [= <-]; exact Wres| |].
      { intros k s Hs. assert (B : is_Some (tget rest k)) by (apply (Kd' k); eauto). destruct B as [s1 Hs1]. specialize (DD k s1 Hs1). unfold P2. lia. }
      exists fin. split.
      + eapply runs_glift; [exact El|]. cbn [fst snd]. rewrite EC. refine (runs_bcast_as nh as_tag (MTag false) false _ _ _ _ eq_refl _). cbv beta iota.
        refine (runs_bcast_as nh as_pred (MPred rest) rest _ _ _ _ eq_refl _).
        apply (runs_hlift nh (fun i => dt_join (host_walk (Datatypes.S (length T)) (sname i) T (hm i)) rest (hd i)) ans); [intros i Hi; apply Hans, Hi|].
        refine (runs_gather_as nh as_predr (fun i => MPredR (ans i)) ans _ _ _ _ (fun i _ => eq_refl) _). cbv beta.
        eapply runs_glift; [exact Ed'|exact RU].
      + split; [exact Wf|]. intros k v. rewrite Gf.
        assert (PW : pwalk (jrow k) (P2 k) = pwalk (jrow k) (P k)).
        { unfold P2, moved. rewrite <- (gdown_walk (jrow k) (P k)). fold (P1 k). destruct (P1 k) as [w|[j|] f thr l r]; [reflexivity|apply hdown_walk|reflexivity]. }
        split.
        * intros [A|(A & B & _ & D)].
          -- apply Gres in A as [A|(A & B & D)]; [left; exact A|right]. split; [exact A|]. split; [exact B|]. split; [left; apply gdown_only; now rewrite D|]. rewrite <- gdown_walk, D. reflexivity.
          -- apply Kd' in B as [B1 B2]. destruct B1 as [s1 Hs1]. destruct (Grest k s1 Hs1) as (B3 & _). right. split; [|split; [exact B3|split; [right; exact B2|congruence]]].
             destruct (match result with Some r => tget r k | None => None end) as [y|] eqn:Ey; [|reflexivity]. assert (X : tget res k = Some y) by (apply Gres; rewrite Ey; auto). congruence.
        * intros [A|(A & B & D & F)]; [left; apply Gres; left; exact A|]. destruct (tget rest k) as [s1|] eqn:Hs1.
          -- right. destruct (HR1 k s1 Hs1) as (_ & _ & j & f & thr & l & r & EP). split.
             ++ destruct (tget res k) as [y|] eqn:Ey; [|reflexivity]. apply Gres in Ey as [Ey|(_ & _ & Ey)]; [congruence|]. fold (P1 k) in Ey. congruence.
             ++ destruct D as [D|D]; [apply gdown_only in D; fold (P1 k) in D; rewrite EP in D; contradiction|]. split; [apply Kd'; split; [eauto|exact D]|]. split; [right; exact D|congruence].
          -- left. apply Gres. right. destruct (Gnone k B Hs1) as (w & Ew). split; [exact A|]. split; [exact B|]. rewrite <- gdown_walk, Ew in F. cbn in F. now subst.
  Qed.

  (** Prediction from the root. *)
  Lemma predict_ok rounds t : prepr 0 t -> pdepth t < rounds -> exists res, @runs msg R S nh _ _ (guest_predict nh T gm gd rounds) (fun i => host_predict (sname i) T (hm i) (hd i) rounds) res (fun _ => tt) /\
    dt_wf res /\ forall k v, tget res k = Some v <-> k ∈ dt_keys gd /\ (guest_only (jrow k) t \/ everywhere k) /\ pwalk (jrow k) t = v.
  Proof.
    intros RT HD. unfold guest_predict.
    destruct (dt_mapValues_rel (fun _ => Ok (0, 1%Z)) (fun _ (_ : dict nat Qc) s => s = (0, 1%Z)) gd Wg) as (data & Ed & Wd & _ & Gd). { eauto. }
    assert (DK : forall k, is_Some (tget data k) <-> is_Some (tget gd k)).
    { intros k. specialize (Gd k). destruct (tget gd k), (tget data k); try contradiction; split; intros A; first [eexists; reflexivity|destruct A as [? A]; discriminate A]. }
    assert (AT : at_tree data (fun _ => t)).
    { split; [exact Wd|]. intros k s Hs. split; [apply DK; eauto|]. specialize (Gd k). rewrite Hs in Gd. destruct (tget gd k); [subst; exact RT|contradiction]. }
    destruct (rounds_ok (pdepth t) rounds data (fun _ => t) None HD AT ltac:(discriminate) ltac:(auto)) as (res & RU & Wres & Gres).
    exists res. split; [eapply runs_glift; [exact Ed|exact RU]|]. split; [exact Wres|]. intros k v. rewrite Gres, DK, tget_is_Some. split.
    - intros [A|(_ & B)]; [discriminate|exact B].
    - intros B. right. auto.
  Qed.
End Protocol.
