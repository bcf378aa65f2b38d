(** C34-C37: split search, gain and weight. *)
From Verif Require Import SplitPaillier.
From stdpp Require Import list_numbers.
Local Open Scope nat_scope.

Definition split_at (P : sparams) valid (h : list (list (trip Qc))) (f b : nat) (t : trip Qc) : Prop :=
  exists T, candidate P valid h f b t T.

(** C34. The guest's search over any histogram returns the first (feature, bin) in scan order whose gain is largest among the
    candidates, with that bin's left sums, provided some gain exceeds min_impurity; otherwise it returns no feature. The
    reported gain is never below min_impurity - 1e-6, and it exceeds min_impurity exactly when a feature is returned. *)
Theorem C34_local_split P valid h : length h <= length valid ->
  (forall f b t T, candidate P valid h f b t T -> no_zero (reg_lambda P) (th T) (th t)) ->
  exists r x, best_of (fun f b x => exists t T, candidate P valid h f b t T /\ x = gain_of (reg_lambda P) (tg T) (th T) (tg t) (th t))
      (min_impurity P) r /\
    match r with
    | Some (f, b, y) => x = y /\ exists t T, candidate P valid h f b t T /\
        find_split_guest P valid h = Ok (SInfo GuestSite (Some f) (Some b) (Some (tg t)) (Some (th t)) (Some x))
    | None => x = (min_impurity P - FLOAT_ZERO)%Qc /\
        find_split_guest P valid h = Ok (SInfo GuestSite None None None None (Some x))
    end.
Proof.
  intros HL NZ. set (l := cand_list P valid 0 h).
  set (gain := fun c : nat * nat * (trip Qc * trip Qc) => gain_of (reg_lambda P) (tg c.2.2) (th c.2.2) (tg c.2.1) (th c.2.1)).
  assert (MEM : forall f b t T, (f, b, (t, T)) ∈ l -> candidate P valid h f b t T).
  { intros f b t T X. apply cand_list_elem in X as [_ X]. now rewrite drop_0, Nat.sub_0_r in X. }
  assert (E : mapR (cgain (reg_lambda P)) l = Ok (map gain l)).
  { apply mapR_ok_fn. intros [[f b] [t T]] Hc. apply split_gain_ok. exact (NZ f b t T (MEM _ _ _ _ Hc)). }
  pose proof (find_split_guest_ok P valid h _ HL E) as R.
  pose proof (first_best_of P valid h (min_impurity P) gain) as B. cbv zeta in B. fold l in B, R.
  pose proof (first_best_elem (min_impurity P) (combine l (map gain l))) as EL.
  destruct (first_best (min_impurity P) (combine l (map gain l))) as [[[[f b] [t T]] x]|].
  - exists (Some (f, b, x)), x. split; [exact (B _ eq_refl)|]. split; [reflexivity|]. exists t, T.
    split; [|exact R]. apply MEM. specialize (EL _ _ eq_refl). apply elem_of_list_In, in_combine_l in EL. now apply elem_of_list_In.
  - exists None, (min_impurity P - FLOAT_ZERO)%Qc. split; [exact (B _ eq_refl)|]. auto.
Qed.
Print Assumptions C34_local_split.

(** With min_leaf_node >= 1 the last bin is never a candidate, so a chosen bin always has a split point. *)
Theorem C34_never_last_bin {C} P valid (h : list (list (trip C))) f b t T bins :
  (1 <= min_leaf P)%Z -> candidate P valid h f b t T -> h !! f = Some bins -> S b < length bins.
Proof.
  intros ML ((_ & bs & Hb & HT) & (bs' & Hb' & Ht) & _ & _ & HR) Hbins.
  rewrite Hbins in Hb, Hb'. injection Hb as <-. injection Hb' as <-.
  rewrite last_lookup in HT. pose proof (lookup_lt_Some _ _ _ Ht) as L1.
  destruct (decide (b = pred (length bins))) as [->|NE]; [|lia]. rewrite HT in Ht. injection Ht as <-. lia.
Qed.
Print Assumptions C34_never_last_bin.

(** A histogram with one used feature of three bins and one masked one. *)
Definition ex_h : list (list (trip Qc)) :=
  [[Trip (zq 5) (zq 1) 1]; [Trip (zq (-2)) (zq 1) 2; Trip (zq (-3)) (zq 2) 3; Trip (zq 0) (zq 4) 5]].
Definition ex_P : sparams := SParams (zq 1) (zq 0) 2 1.
Lemma ex_cand f b t T : candidate ex_P [false; true] ex_h f b t T ->
  f = 1 /\ T = Trip (zq 0) (zq 4) 5 /\ ((b = 0 /\ t = Trip (zq (-2)) (zq 1) 2) \/ (b = 1 /\ t = Trip (zq (-3)) (zq 2) 3)).
Proof.
  intros ((V & bs & Hb & HT) & (bs' & Hb' & Ht) & _ & HL & HR).
  destruct f as [|[|f]]; cbn in V; [discriminate| |discriminate]. cbn in Hb, Hb'. injection Hb as <-. injection Hb' as <-.
  cbn in HT. injection HT as <-. split; [reflexivity|]. split; [reflexivity|].
  destruct b as [|[|[|b]]]; cbn in Ht; [injection Ht as <-; auto|injection Ht as <-; auto| |discriminate].
  injection Ht as <-. cbn in HR. lia.
Qed.
Lemma ex_pos (a : Qc) : qltb (zq 0) a = true -> a <> zq 0.
Proof. intros X ->. vm_compute in X. discriminate. Qed.
Definition show_si (r : res (splitinfo Qc Qc)) :=
  match r with Ok s => Some (si_fid s, si_bid s, option_map this (si_grad s), option_map this (si_hess s), option_map this (si_gain s)) | Err _ => None end.
Example C34_ex : (forall f b t T, candidate ex_P [false; true] ex_h f b t T -> no_zero (reg_lambda ex_P) (th T) (th t)) /\
  (exists t T, candidate ex_P [false; true] ex_h 1 1 t T) /\
  show_si (find_split_guest ex_P [false; true] ex_h) = Some (Some 1, Some 1, Some (-3 # 1)%Q, Some (2 # 1)%Q, Some (6 # 1)%Q).
Proof.
  split; [|split].
  - intros f b t T H. apply ex_cand in H as (_ & -> & [[_ ->]|[_ ->]]); repeat split; apply ex_pos; vm_compute; reflexivity.
  - exists (Trip (zq (-3)) (zq 2) 3), (Trip (zq 0) (zq 4) 5). split; [split; [reflexivity|eexists; split; reflexivity]|].
    split; [eexists; split; reflexivity|]. split; [|cbn; lia]. intros f' tot' L (V & bs & Hb & HT).
    destruct f' as [|[|f']]; cbn in V; [discriminate| |lia]. cbn in Hb. injection Hb as <-. cbn in HT. injection HT as <-. cbn. lia.
  - vm_compute. reflexivity.
Qed.

(** C35. [q] is the decrypted histogram: same counts, and every candidate cell decrypts to the corresponding entry. *)
Definition decrypted {C} (dec : C -> res Qc) (P : sparams) valid (h : list (list (trip C))) (q : list (list (trip Qc))) : Prop :=
  Forall2 (Forall2 (fun t t' => tc t = tc t')) h q /\
  forall f b t T t' T', candidate P valid h f b t T -> candidate P valid q f b t' T' -> dec (tg t) = Ok (tg t') /\ dec (th t) = Ok (th t').

Lemma decrypted_last {C} (bins : list (trip C)) (bins' : list (trip Qc)) T :
  Forall2 (fun t t' => tc t = tc t') bins bins' -> last bins = Some T -> exists T', last bins' = Some T' /\ tc T = tc T'.
Proof.
  intros F HT. rewrite last_lookup in HT. destruct (Forall2_lookup_l _ _ _ _ _ F HT) as (T' & HT' & E).
  exists T'. split; [|exact E]. rewrite last_lookup, <- (Forall2_length _ _ _ F). exact HT'.
Qed.
Lemma decrypted_last' {C} (bins : list (trip C)) (bins' : list (trip Qc)) T' :
  Forall2 (fun t t' => tc t = tc t') bins bins' -> last bins' = Some T' -> exists T, last bins = Some T /\ tc T = tc T'.
Proof.
  intros F HT. rewrite last_lookup in HT. destruct (Forall2_lookup_r _ _ _ _ _ F HT) as (T & HT' & E).
  exists T. split; [|exact E]. rewrite last_lookup, (Forall2_length _ _ _ F). exact HT'.
Qed.
Lemma decrypted_cand {C} P valid (h : list (list (trip C))) (q : list (list (trip Qc))) f b :
  Forall2 (Forall2 (fun t t' => tc t = tc t')) h q ->
  (forall t T, candidate P valid h f b t T -> exists t' T', candidate P valid q f b t' T') /\
  (forall t' T', candidate P valid q f b t' T' -> exists t T, candidate P valid h f b t T).
Proof.
  intros F. split.
  - intros t T ((V & bs & Hb & HT) & (bs' & Hb' & Ht) & HS & HL & HR). rewrite Hb in Hb'. injection Hb' as <-.
    destruct (Forall2_lookup_l _ _ _ _ _ F Hb) as (cs & Hc & Fc). destruct (Forall2_lookup_l _ _ _ _ _ Fc Ht) as (t' & Ht' & E1).
    destruct (decrypted_last _ _ _ Fc HT) as (T' & HT' & E2).
    exists t', T'. split; [split; eauto|]. split; [eauto|]. split; [|lia]. intros f' tot' Lf (V' & bs' & Hb' & HT2).
    destruct (Forall2_lookup_r _ _ _ _ _ F Hb') as (ds & Hd & Fd). destruct (decrypted_last' _ _ _ Fd HT2) as (U & HU & EU).
    rewrite <- EU. apply (HS f'); [exact Lf|]. split; eauto.
  - intros t T ((V & bs & Hb & HT) & (bs' & Hb' & Ht) & HS & HL & HR). rewrite Hb in Hb'. injection Hb' as <-.
    destruct (Forall2_lookup_r _ _ _ _ _ F Hb) as (cs & Hc & Fc). destruct (Forall2_lookup_r _ _ _ _ _ Fc Ht) as (t' & Ht' & E1).
    destruct (decrypted_last' _ _ _ Fc HT) as (T' & HT' & E2).
    exists t', T'. split; [split; eauto|]. split; [eauto|]. split; [|lia]. intros f' tot' Lf (V' & bs' & Hb' & HT2).
    destruct (Forall2_lookup_l _ _ _ _ _ F Hb') as (ds & Hd & Fd). destruct (decrypted_last _ _ _ Fd HT2) as (U & HU & EU).
    rewrite EU. apply (HS f'); [exact Lf|]. split; eauto.
Qed.
Lemma candidate_fun {C} P valid (h : list (list (trip C))) f b t T t' T' :
  candidate P valid h f b t T -> candidate P valid h f b t' T' -> t = t' /\ T = T'.
Proof.
  intros ((_ & bs & Hb & HT) & (bs' & Hb' & Ht) & _) ((_ & cs & Hc & HT') & (cs' & Hc' & Ht') & _).
  rewrite Hb in Hb', Hc, Hc'. injection Hb' as <-. injection Hc as <-. injection Hc' as <-. split; congruence.
Qed.

(** What the host sends back for one node after the exchange, against the best candidate of the decrypted histogram for the
    node sums G, H: the chosen feature and left sums, the bin kept in its own dictionary, the encryption of the gain. *)
Theorem C35_host_search {C E} P valid sn nid (dec : C -> res Qc) (enc : Qc -> res E) (h : list (list (trip C))) q G H :
  length h <= length valid -> decrypted dec P valid h q ->
  (forall f b t T, candidate P valid q f b t T -> no_zero (reg_lambda P) H (th t)) ->
  (forall x, exists e, enc x = Ok e) ->
  exists cands sums bg s m r, find_split_host1 P valid sn h = Ok (cands, sums) /\
    find_host_split P dec enc G H sums = Ok bg /\ final_split sn nid cands bg = Ok (s, m) /\
    best_of (fun f b x => exists t T, candidate P valid q f b t T /\ x = gain_of (reg_lambda P) G H (tg t) (th t)) (min_impurity P) r /\
    match r with
    | Some (f, b, x) => exists e t T, enc x = Ok e /\ candidate P valid q f b t T /\ m = Some (nid, b) /\
        si_site s = sn /\ si_fid s = Some f /\ si_bid s = None /\ si_gain s = Some e /\
        dec_opt dec (si_grad s) = Ok (tg t) /\ dec_opt dec (si_hess s) = Ok (th t)
    | None => exists e, enc (min_impurity P - FLOAT_ZERO)%Qc = Ok e /\ m = None /\ s = SInfo sn None None None None (Some e)
    end.
Proof.
  intros HL [FQ DQ] NZ EN. set (l := cand_list P valid 0 h).
  assert (MEM : forall f b t T, (f, b, (t, T)) ∈ l <-> candidate P valid h f b t T).
  { intros f b t T. unfold l. rewrite cand_list_elem, drop_0, Nat.sub_0_r. split; [intros [_ X]; exact X|auto with lia]. }
  (* the left sums of a candidate, read off the decrypted histogram *)
  set (sl := fun c : nat * nat * (trip C * trip C) =>
    match q !! c.1.1 with Some bs => match bs !! c.1.2 with Some t => (tg t, th t) | None => (zq 0, zq 0) end | None => (zq 0, zq 0) end).
  assert (SL : forall f b t T t' T', candidate P valid h f b t T -> candidate P valid q f b t' T' -> sl (f, b, (t, T)) = (tg t', th t')).
  { intros f b t T t' T' _ (_ & (bs & Hb & Ht) & _). unfold sl. cbn [fst snd]. now rewrite Hb, Ht. }
  set (gain := fun c => gain_of (reg_lambda P) G H (sl c).1 (sl c).2).
  destruct (host_pick_ok P dec G H l sl) as (st & Est & Hst).
  { intros [[f b] [t T]] Hc. apply MEM in Hc. destruct (decrypted_cand P valid h q f b FQ) as [D _].
    destruct (D t T Hc) as (t' & T' & Hc'). rewrite (SL _ _ _ _ _ _ Hc Hc'). cbn [fst snd]. destruct (DQ _ _ _ _ _ _ Hc Hc'). eauto. }
  destruct (EN st.1) as [e He].
  exists (map (fun c => SInfo sn (Some c.1.1) (Some c.1.2) (Some (tg c.2.1)) (Some (th c.2.1)) None) l), (map sums_of l), (st.2, e).
  assert (E1 : find_split_host1 (E := E) P valid sn h =
    Ok (map (fun c => SInfo sn (Some c.1.1) (Some c.1.2) (Some (tg c.2.1)) (Some (th c.2.1)) None) l, map sums_of l)).
  { unfold find_split_host1. rewrite host_features_ok by (cbn; lia). cbn [mbind res_bind]. unfold cand_sums. now rewrite map_map. }
  assert (E2 : find_host_split P dec enc G H (map sums_of l) = Ok (st.2, e)).
  { unfold find_host_split. rewrite Est. cbn [mbind res_bind]. rewrite He. reflexivity. }
  pose proof (first_best_of P valid h (min_impurity P) gain) as B. cbv zeta in B. fold l in B.
  assert (CM : combine l (map gain l) = map (fun c => (c, gain c)) l).
  { generalize l. clear. intros l. induction l as [|a l IH]; [reflexivity|]. cbn. now rewrite IH. }
  rewrite CM in B. unfold gain in B at 1.
  assert (BO : forall r, best_of (fun f b x => exists t T, candidate P valid h f b t T /\ x = gain (f, b, (t, T))) (min_impurity P) r ->
    best_of (fun f b x => exists t T, candidate P valid q f b t T /\ x = gain_of (reg_lambda P) G H (tg t) (th t)) (min_impurity P) r).
  { assert (IFF : forall f b x, (exists t T, candidate P valid h f b t T /\ x = gain (f, b, (t, T))) <->
       (exists t T, candidate P valid q f b t T /\ x = gain_of (reg_lambda P) G H (tg t) (th t))).
    { intros f b x. destruct (decrypted_cand P valid h q f b FQ) as [D1 D2]. split.
      - intros (t & T & Hc & ->). destruct (D1 t T Hc) as (t' & T' & Hc'). exists t', T'. split; [exact Hc'|]. unfold gain. now rewrite (SL _ _ _ _ _ _ Hc Hc').
      - intros (t' & T' & Hc' & ->). destruct (D2 t' T' Hc') as (t & T & Hc). exists t, T. split; [exact Hc|]. unfold gain. now rewrite (SL _ _ _ _ _ _ Hc Hc'). }
    intros [[[f b] x]|]; cbn [best_of].
    - intros (A1 & A2 & A3). split; [now apply IFF|]. split; [exact A2|]. intros f' b' x' Hx. apply A3. now apply IFF.
    - intros A f b x Hx. apply (A f b x). now apply IFF. }
  pose proof (first_best_elem (min_impurity P) (map (fun c => (c, gain c)) l)) as EL. unfold gain in EL at 1.
  destruct (first_best (min_impurity P) (map (fun c => (c, gain_of (reg_lambda P) G H (sl c).1 (sl c).2)) l)) as [[[[f b] [t T]] x]|].
  - destruct Hst as (i & -> & Hi). cbn [fst snd] in *. eexists _, _, (Some (f, b, x)). split; [exact E1|]. split; [exact E2|]. split.
    { unfold final_split. cbn [fst snd]. unfold list_index.
      assert (LK : map (fun c : nat * nat * (trip C * trip C) => SInfo (E := E) sn (Some c.1.1) (Some c.1.2) (Some (tg c.2.1)) (Some (th c.2.1)) None) l !! i
        = Some (SInfo sn (Some f) (Some b) (Some (tg t)) (Some (th t)) None)).
      { etransitivity; [exact (list_lookup_fmap _ l i)|]. now rewrite Hi. }
      rewrite LK. cbn [mbind res_bind si_site si_fid si_bid si_grad si_hess]. destruct (decide (sn = sn)); [reflexivity|contradiction]. }
    split; [exact (BO _ (B _ eq_refl))|].
    assert (Hc : candidate P valid h f b t T) by (apply MEM; eapply elem_of_list_lookup_2; exact Hi).
    destruct (decrypted_cand P valid h q f b FQ) as [D _]. destruct (D t T Hc) as (t' & T' & Hc'). destruct (DQ _ _ _ _ _ _ Hc Hc') as [D1 D2].
    exists e, t', T'. cbn. auto 10.
  - subst st. cbn [fst snd] in *. eexists _, _, None. split; [exact E1|]. split; [exact E2|]. split; [reflexivity|].
    split; [exact (BO _ (B _ eq_refl))|]. eauto.
Qed.
Print Assumptions C35_host_search.

Lemma best_of_unique cand m r r' : best_of cand m r -> best_of cand m r' -> r = r'.
Proof.
  destruct r as [[[f b] x]|], r' as [[[f' b'] x']|]; cbn [best_of]; [| | |reflexivity].
  - intros (A1 & A2 & A3) (B1 & B2 & B3). destruct (A3 _ _ _ B1) as [L1 S1], (B3 _ _ _ A1) as [L2 S2].
    assert (x = x') as <- by (apply Qcle_antisym; assumption).
    assert (TR : lex_lt (f, b) (f', b') \/ (f = f' /\ b = b') \/ lex_lt (f', b') (f, b)) by (unfold lex_lt; cbn; lia).
    destruct TR as [X|[[<- <-]|X]]; [destruct (Qclt_not_eq _ _ (S2 X) eq_refl)|reflexivity|destruct (Qclt_not_eq _ _ (S1 X) eq_refl)].
  - intros (A1 & A2 & _) B. destruct (Qcle_not_lt _ _ (B _ _ _ A1) A2).
  - intros B (A1 & A2 & _). destruct (Qcle_not_lt _ _ (B _ _ _ A1) A2).
Qed.

(** If the totals of the decrypted histogram are the node sums, the outcome is exactly what the plaintext search finds. *)
Theorem C35_same_as_plaintext {C E} P valid sn nid (dec : C -> res Qc) (enc : Qc -> res E) (h : list (list (trip C))) q G H :
  length h <= length valid -> decrypted dec P valid h q ->
  (forall f T, used valid q f T -> tg T = G /\ th T = H) ->
  (forall f b t T, candidate P valid q f b t T -> no_zero (reg_lambda P) H (th t)) ->
  (forall x, exists e, enc x = Ok e) ->
  exists cands sums bg s m g gain, find_split_host1 P valid sn h = Ok (cands, sums) /\
    find_host_split P dec enc G H sums = Ok bg /\ final_split sn nid cands bg = Ok (s, m) /\
    find_split_guest P valid q = Ok g /\ si_gain g = Some gain /\ enc gain = Ok bg.2 /\ si_gain s = Some bg.2 /\
    si_fid s = si_fid g /\ option_map snd m = si_bid g /\
    match si_grad g, si_hess g with
    | Some a, Some b => dec_opt dec (si_grad s) = Ok a /\ dec_opt dec (si_hess s) = Ok b
    | _, _ => si_fid s = None
    end.
Proof.
  intros HL D TOT NZ EN.
  destruct (C35_host_search P valid sn nid dec enc h q G H HL D NZ EN) as (cands & sums & bg & s & m & r & E1 & E2 & E3 & B & R).
  destruct (C34_local_split P valid q) as (r' & x & B' & R').
  { destruct D as [F _]. apply Forall2_length in F. lia. }
  { intros f b t T Hc. destruct (TOT f T (proj1 Hc)) as [_ ->]. eauto. }
  assert (r = r') as <-.
  { refine (best_of_unique _ _ _ _ B _). destruct r' as [[[f b] y]|]; cbn [best_of] in *.
    - destruct B' as (A1 & A2 & A3). split; [|split; [exact A2|]].
      + destruct A1 as (t & T & Hc & ->). destruct (TOT f T (proj1 Hc)) as [-> ->]. eauto.
      + intros f' b' x' (t & T & Hc & ->). apply A3. exists t, T. destruct (TOT f' T (proj1 Hc)) as [-> ->]. auto.
    - intros f b y (t & T & Hc & ->). apply (B' f b). exists t, T. destruct (TOT f T (proj1 Hc)) as [-> ->]. auto. }
  exists cands, sums, bg, s, m.
  assert (BG : si_gain s = Some bg.2).
  { unfold final_split in E3. destruct bg as [[i|] e]; cbn [fst snd] in *; [|injection E3 as <- _; reflexivity].
    destruct (list_index cands i) as [c|]; [|discriminate]. cbn [mbind res_bind] in E3. destruct (decide _); [|discriminate].
    destruct (si_fid c), (si_bid c); try discriminate. injection E3 as <- _. reflexivity. }
  destruct r as [[[f b] y]|].
  - destruct R' as (-> & t & T & Hc & R'). destruct R as (e & t' & T' & Ee & Hc' & -> & S1 & S2 & S3 & S4 & S5 & S6).
    destruct (candidate_fun _ _ _ _ _ _ _ _ _ Hc Hc') as [<- <-]. rewrite BG in S4. injection S4 as <-.
    eexists _, y. split; [exact E1|]. split; [exact E2|]. split; [exact E3|]. split; [exact R'|]. cbn. auto 10.
  - destruct R' as (-> & R'). destruct R as (e & Ee & -> & ->). cbn in BG. injection BG as <-.
    eexists _, _. split; [exact E1|]. split; [exact E2|]. split; [exact E3|]. split; [exact R'|]. cbn. auto 10.
Qed.
Print Assumptions C35_same_as_plaintext.

Example C35_ex : decrypted (fun c => Ok c) ex_P [false; true] ex_h ex_h /\
  (forall f T, used [false; true] ex_h f T -> tg T = zq 0 /\ th T = zq 4) /\
  (forall f b t T, candidate ex_P [false; true] ex_h f b t T -> no_zero (reg_lambda ex_P) (zq 4) (th t)).
Proof.
  split; [|split].
  - split; [repeat constructor|]. intros f b t T t' T' Hc Hc'. destruct (candidate_fun _ _ _ _ _ _ _ _ _ Hc Hc') as [<- _]. auto.
  - intros f T (V & bs & Hb & HT). destruct f as [|[|f]]; cbn in V; [discriminate| |discriminate]. cbn in Hb. injection Hb as <-. cbn in HT. injection HT as <-. auto.
  - intros f b t T H. apply ex_cand in H as (_ & -> & [[_ ->]|[_ ->]]); repeat split; apply ex_pos; vm_compute; reflexivity.
Qed.

(** C36. The chosen split gains at least as much as every party's best minus 1e-6, and the guest's is taken whenever it is
    within 1e-6 of every host. [xs] are the decrypted gains of the hosts. *)
Theorem C36_chosen {C E} (dec : C -> res Qc) (gdec : E -> res Qc) guest gg (hosts : list (splitinfo C E)) xs s :
  si_gain guest = Some gg -> Forall2 (fun s x => dec_opt gdec (si_gain s) = Ok x) hosts xs ->
  find_best_split dec gdec guest hosts = Ok s ->
  exists g, si_gain s = Some g /\ (gg <= g + FLOAT_ZERO)%Qc /\ (forall x, x ∈ xs -> (x <= g + FLOAT_ZERO)%Qc) /\
    ((forall x, x ∈ xs -> (x - FLOAT_ZERO <= gg)%Qc) -> s = guest) /\
    ((exists x, x ∈ xs /\ (gg < x - FLOAT_ZERO)%Qc) ->
       exists i hs, hosts !! i = Some hs /\ xs !! i = Some g /\ (forall j x, xs !! j = Some x -> (x <= g)%Qc /\ (j < i -> (x < g)%Qc)) /\
         si_site s = si_site hs /\ si_fid s = si_fid hs /\ si_bid s = si_bid hs /\
         exists a b, dec_opt dec (si_grad hs) = Ok a /\ dec_opt dec (si_hess hs) = Ok b /\ si_grad s = Some a /\ si_hess s = Some b).
Proof.
  intros Gg F ER. pose proof FLOAT_ZERO_pos as FZ. rewrite zq_0 in FZ.
  unfold find_best_split in ER. destruct hosts as [|s1 hosts]; [discriminate|]. destruct xs as [|x1 xs]; [inversion F|].
  destruct (best_host_all gdec s1 hosts x1 xs F) as (x & i & Ef & Hi & D).
  assert (E1 : dec_opt gdec (si_gain s1) = Ok x1) by (inversion F; assumption).
  change (list_index (s1 :: hosts) 0) with (Ok s1) in ER. cbn [mbind res_bind] in ER. rewrite E1 in ER. cbn [mbind res_bind] in ER.
  rewrite Ef in ER. cbn [mbind res_bind fst snd] in ER. rewrite Gg in ER.
  assert (UP : forall y, y ∈ x1 :: xs -> (y <= x)%Qc).
  { intros y Hy. apply elem_of_list_lookup in Hy as (j & Hj). now destruct (D j y Hj). }
  destruct (qleb (x - FLOAT_ZERO)%Qc gg) eqn:Eq; qcases.
  - injection ER as <-. exists gg. split; [exact Gg|]. split; [qlra|]. split; [intros y Hy; specialize (UP y Hy); qlra|]. split; [reflexivity|].
    intros (y & Hy & Ly). specialize (UP y Hy). exfalso. qlra.
  - destruct (Forall2_lookup_r _ _ _ _ _ F Hi) as (hs & Hhs & Ghs). unfold list_index in ER. rewrite Hhs in ER. cbn [mbind res_bind] in ER.
    destruct (dec_opt dec (si_grad hs)) as [a|] eqn:Ea; [|discriminate]. cbn [mbind res_bind] in ER.
    destruct (dec_opt dec (si_hess hs)) as [b|] eqn:Eb; [|discriminate]. cbn [mbind res_bind] in ER. injection ER as <-. cbn [si_gain].
    exists x. split; [reflexivity|]. split; [qlra|]. split; [intros y Hy; specialize (UP y Hy); qlra|]. split.
    + intros H. exfalso. specialize (H x (elem_of_list_lookup_2 _ _ _ Hi)). qlra.
    + intros _. exists i, hs. split; [exact Hhs|]. split; [exact Hi|]. split; [exact D|]. cbn. split; [reflexivity|]. split; [reflexivity|]. split; [reflexivity|]. exists a, b. auto.
Qed.
Print Assumptions C36_chosen.

(** A level: node i is decided from the guest's entry i and entry i of every host, and from nothing else. *)
Lemma mapR_iff {A B} (f : A -> res B) l : forall ys, mapR f l = Ok ys <-> Forall2 (fun x y => f x = Ok y) l ys.
Proof.
  induction l as [|x l IH]; intros ys; cbn.
  - split; [intros [= <-]; constructor|intros H; inversion H; reflexivity].
  - destruct (f x) as [y|e] eqn:E; cbn [mbind res_bind].
    + destruct (mapR f l) as [ys'|e] eqn:E2; cbn [mbind res_bind].
      * split; [intros [= <-]; constructor; [exact E|now apply IH]|]. intros H. inversion H as [|? y' ? ys2 H1 H2]; subst. rewrite E in H1. injection H1 as <-. apply IH in H2 as [= <-]. reflexivity.
      * split; [discriminate|]. intros H. inversion H as [|? y' ? ys2 H1 H2]; subst. apply IH in H2. discriminate.
    + split; [discriminate|]. intros H. inversion H as [|? y' ? ys2 H1 H2]; subst. congruence.
Qed.
Theorem C36_every_node {C E} (dec : C -> res Qc) (gdec : E -> res Qc) (guest : list (splitinfo Qc Qc)) (hosts : list (list (splitinfo C E))) out :
  merge_splitinfo dec gdec guest hosts = Ok out <->
  length out = length guest /\ forall i g s, guest !! i = Some g -> out !! i = Some s ->
    exists row, Forall2 (fun answers x => answers !! i = Some x) hosts row /\ find_best_split dec gdec g row = Ok s.
Proof.
  unfold merge_splitinfo.
  assert (LI : forall (hl : list (splitinfo C E)) i x, list_index hl i = Ok x <-> hl !! i = Some x).
  { intros hl i x. unfold list_index. destruct (hl !! i); split; congruence. }
  assert (ROW : forall i row, mapR (fun hl => list_index hl i) hosts = Ok row <-> Forall2 (fun answers x => answers !! i = Some x) hosts row).
  { intros i row. rewrite mapR_iff. split; intros H; eapply Forall2_impl; eauto; cbn; intros; now apply LI. }
  set (f := fun ig : nat * splitinfo Qc Qc => row ← mapR (fun hl => list_index hl ig.1) hosts; Ok (ig.2, row)). set (h := fun r : splitinfo Qc Qc * list (splitinfo C E) => find_best_split dec gdec r.1 r.2).
  assert (FI : forall ig r, f ig = Ok r <-> r.1 = ig.2 /\ Forall2 (fun answers x => answers !! ig.1 = Some x) hosts r.2).
  { intros [i g] [g' row]. unfold f. cbn [fst snd]. destruct (mapR _ hosts) as [row'|] eqn:ER; cbn [mbind res_bind].
    - apply ROW in ER. split; [intros [= <- <-]; auto|]. intros [-> H]. apply ROW in ER. apply ROW in H. congruence.
    - split; [discriminate|]. intros [_ H]. apply ROW in H. congruence. }
  assert (LC : length (combine (seq 0 (length guest)) guest) = length guest) by (rewrite combine_length, seq_length; lia).
  assert (CL : forall i ig, combine (seq 0 (length guest)) guest !! i = Some ig <-> ig.1 = i /\ guest !! i = Some ig.2).
  { intros i [i' g]. cbn [fst snd]. change (combine (seq 0 (length guest)) guest) with (zip_with pair (seq 0 (length guest)) guest).
    rewrite lookup_zip_with_Some. split.
    - intros (x & y & [= -> ->] & H1 & H2). pose proof (lookup_lt_Some _ _ _ H1) as LT. rewrite seq_length in LT. rewrite lookup_seq_lt in H1 by exact LT. injection H1 as <-. auto.
    - intros [-> H]. exists i, g. split; [reflexivity|]. split; [|exact H]. rewrite lookup_seq_lt by (eapply lookup_lt_Some; eauto). reflexivity. }
  split.
  - destruct (mapR f _) as [rows|] eqn:ER; cbn [mbind res_bind]; [|discriminate]. intros EO. apply mapR_iff in ER. apply mapR_iff in EO.
    split; [rewrite <- (Forall2_length _ _ _ EO), <- (Forall2_length _ _ _ ER); exact LC|]. intros i g s Hg Hs.
    destruct (Forall2_lookup_r _ _ _ _ _ EO Hs) as (r & Hr & E1). destruct (Forall2_lookup_r _ _ _ _ _ ER Hr) as (ig & Hig & E2).
    apply CL in Hig as [<- Hig]. apply FI in E2 as [E2 E3]. rewrite Hg in Hig. injection Hig as ->. rewrite <- E2. exists r.2. split; [exact E3|exact E1].
  - intros [LO H]. assert (X : exists rows, Forall2 (fun ig r => f ig = Ok r) (combine (seq 0 (length guest)) guest) rows /\ Forall2 (fun r s => h r = Ok s) rows out).
    { clear ROW LI. set (l := combine (seq 0 (length guest)) guest) in *. assert (Y : Forall2 (fun ig s => exists r, f ig = Ok r /\ h r = Ok s) l out).
      { apply Forall2_same_length_lookup. split; [rewrite LC; congruence|]. intros i ig s Hig Hs. apply CL in Hig as [<- Hig]. destruct (H _ _ _ Hig Hs) as (row & R1 & R2). exists (ig.2, row). split; [apply FI; auto|exact R2]. }
      clear -Y. induction Y as [|ig s l out (r & A & B) _ (rows & R1 & R2)]; [exists []; split; constructor|]. exists (r :: rows). split; constructor; auto. }
    destruct X as (rows & R1 & R2). apply mapR_iff in R1. rewrite R1. cbn [mbind res_bind]. now apply mapR_iff.
Qed.
Print Assumptions C36_every_node.
(** Two nodes and two hosts: the guest keeps node 0, host 2 gets node 1. *)
Definition merge_ex : res (list (splitinfo Qc Qc)) :=
  let s sn f g := SInfo sn (Some f) (Some 0) (Some (zq 1)) (Some (zq 2)) (Some (zq g)) in
  merge_splitinfo (fun x => Ok x) (fun x => Ok x) [s GuestSite 0 5%Z; s GuestSite 1 3%Z] [[s (HostSite 1) 2 4%Z; s (HostSite 1) 3 6%Z]; [s (HostSite 2) 4 5%Z; s (HostSite 2) 5 7%Z]].
Example C36_every_node_ex : match merge_ex with Ok l => map si_site l = [GuestSite; HostSite 2] /\ map si_fid l = [Some 0; Some 5] | Err _ => False end.
Proof. vm_compute. split; reflexivity. Qed.

(** What a host's answer for a node is, however its histogram, mask and the node sums look: [enc] is the encryption the guest used
    and decrypting its result is off by at most 1e-6. *)
Definition host_answer {C E} P (dec : C -> res Qc) (gdec : E -> res Qc) (s : splitinfo C E) : Prop :=
  exists valid sn nid h (enc : Qc -> res E) G H cands sums bg m,
    find_split_host1 P valid sn h = Ok (cands, sums) /\ find_host_split P dec enc G H sums = Ok bg /\
    final_split sn nid cands bg = Ok (s, m) /\
    (forall x e, enc x = Ok e -> exists y, gdec e = Ok y /\ (qabs (y - x) <= FLOAT_ZERO)%Qc).

Lemma host_pick_inv {C} P (dec : C -> res Qc) G H l : forall st st', foldM (host_pick P dec G H) st l = Ok st' ->
  (forall ic, ic ∈ l -> exists a b, dec_opt dec ic.2.1 = Ok a /\ dec_opt dec ic.2.2 = Ok b) /\
  (st' = st \/ exists ic, ic ∈ l /\ st'.2 = Some ic.1).
Proof.
  induction l as [|ic l IH]; intros st st' E; cbn in E.
  - injection E as <-. split; [intros ic X; inversion X|auto].
  - unfold host_pick at 1 in E. destruct (dec_opt dec ic.2.1) as [a|] eqn:Ea; [|discriminate]. cbn [mbind res_bind] in E.
    destruct (dec_opt dec ic.2.2) as [b|] eqn:Eb; [|discriminate]. cbn [mbind res_bind] in E.
    destruct (split_gain _ _ _ _ _ _ _) as [x|]; [|discriminate]. cbn [mbind res_bind] in E.
    assert (X : exists st1, foldM (host_pick P dec G H) st1 l = Ok st' /\ (st1 = st \/ st1.2 = Some ic.1)).
    { destruct (_ && _); eexists; (split; [exact E|auto]). }
    destruct X as (st1 & E' & S1). destruct (IH st1 st' E') as [A B]. split.
    + intros ic' Hin. apply elem_of_cons in Hin as [->|Hin]; [eauto|auto].
    + destruct B as [->|(ic' & Hin & Eq)].
      * destruct S1 as [->|S1]; [auto|]. right. exists ic. split; [now left|exact S1].
      * right. exists ic'. split; [now right|exact Eq].
Qed.

Lemma guest_features_gain P valid feats : forall fid b b', guest_features P valid fid feats b = Ok b' -> (b_gain b <= b_gain b')%Qc.
Proof.
  induction feats as [|bins feats IH]; intros fid b b' E; cbn in E; [injection E as <-; apply Qcle_refl|].
  destruct (list_index valid fid) as [v|]; [|discriminate]. cbn [mbind res_bind] in E.
  destruct v; cbn [negb] in E; [|eauto]. destruct (last bins) as [tot|]; [|eauto].
  destruct (_ <? _)%Z; [injection E as <-; apply Qcle_refl|].
  destruct (foldM _ b _) as [b1|] eqn:E1; [|discriminate]. cbn [mbind res_bind] in E.
  apply IH in E. eapply Qcle_trans; [|exact E]. clear E IH. revert b E1. generalize (combine (seq 0 (length bins)) bins). intros l.
  induction l as [|a l IHl]; intros b E1; cbn in E1; [injection E1 as <-; apply Qcle_refl|].
  unfold guest_bin at 1 in E1. destruct (_ && _) eqn:EA; [|eauto].
  destruct (split_gain _ _ _ _ _ _ _) as [x|]; [|discriminate]. cbn [mbind res_bind] in E1.
  destruct (qltb (min_impurity P) x && qltb (b_gain b) x) eqn:EB; [|eauto].
  apply andb_prop in EB as [_ EB]. qcases. apply IHl in E1. cbn [b_gain] in E1. qlra.
Qed.

(** The whole exchange for one node: whatever split the guest found on its own histogram and whatever the hosts answered,
    the choice does not fail and is the guest's split or a genuine candidate of a host, never a placeholder. *)
Theorem C36_no_placeholder {C E} P valid h (dec : C -> res Qc) (gdec : E -> res Qc) guest (hosts : list (splitinfo C E)) :
  find_split_guest P valid h = Ok guest -> hosts <> [] -> Forall (host_answer P dec gdec) hosts ->
  exists s, find_best_split dec gdec guest hosts = Ok s /\ (s = guest \/ si_fid s <> None).
Proof.
  intros EG NE F. pose proof FLOAT_ZERO_pos as FZ. rewrite zq_0 in FZ.
  assert (exists gg, si_gain guest = Some gg /\ (min_impurity P - FLOAT_ZERO <= gg)%Qc) as (gg & Gg & Lg).
  { unfold find_split_guest in EG. destruct (guest_features _ _ _ _ _) as [b|] eqn:E1; [|discriminate]. cbn [mbind res_bind] in EG.
    apply guest_features_gain in E1. cbn [b_gain] in E1. injection EG as <-. exists (b_gain b). split; [|exact E1].
    destruct (b_at b) as [[[f c] [a w]]|]; reflexivity. }
  assert (exists offers, Forall2 (offered dec gdec (gg + FLOAT_ZERO)%Qc) hosts offers) as (offers & FO).
  { clear NE. induction F as [|s hosts Hs _ (offers & IH)]; [exists []; constructor|].
    destruct Hs as (v & sn & nid & h' & enc & G & H & cands & sums & bg & m & E1 & E2 & E3 & EN).
    assert (exists o, offered dec gdec (gg + FLOAT_ZERO)%Qc s o) as (o & Ho); [|exists (o :: offers); auto].
    unfold find_host_split in E2. destruct (foldM _ _ _) as [st|] eqn:EF; [|discriminate]. cbn [mbind res_bind] in E2.
    destruct (enc st.1) as [e|] eqn:Ee; [|discriminate]. cbn [mbind res_bind] in E2. injection E2 as <-.
    destruct (EN _ _ Ee) as (y & Ey & Ly). destruct (host_pick_inv _ _ _ _ _ _ _ EF) as [DA DB].
    unfold final_split in E3. cbn [fst snd] in E3. destruct (st.2) as [i|] eqn:Est.
    - destruct (list_index cands i) as [c|] eqn:Ec; [|discriminate]. cbn [mbind res_bind] in E3. destruct (decide _); [|discriminate].
      destruct (si_fid c) as [f|] eqn:Ef; [|discriminate]. destruct (si_bid c) as [b|] eqn:Eb; [|discriminate]. injection E3 as <- _.
      unfold find_split_host1 in E1. destruct (host_features _ _ _ _ _) as [l|]; [|discriminate]. cbn [mbind res_bind] in E1. injection E1 as -> <-.
      unfold list_index in Ec. destruct (cands !! i) as [c'|] eqn:Ec'; [|discriminate]. injection Ec as ->.
      assert (IN : (i, (si_grad c, si_hess c)) ∈ combine (seq 0 (length (cand_sums cands))) (cand_sums cands)).
      { apply combine_seq_elem. split; [lia|]. rewrite Nat.sub_0_r. etransitivity; [exact (list_lookup_fmap _ cands i)|]. now rewrite Ec'. }
      destruct (DA _ IN) as (a & w & Ea & Ew). cbn [fst snd] in Ea, Ew.
      exists (Some ((si_site c, f, (a, w)), y)). cbn. auto 10.
    - injection E3 as <- _. exists None. exists y. split; [exact Ey|].
      assert (st = ((min_impurity P - FLOAT_ZERO)%Qc, None)) as ->.
      { destruct DB as [->|(ic & _ & X)]; [reflexivity|congruence]. }
      cbn [fst] in Ly. apply qabs_le in Ly as [_ Ly]. qlra. }
  rewrite (find_best_split_ok dec gdec guest gg hosts offers NE Gg FO). eexists. split; [reflexivity|].
  destruct (first_best _ _) as [o|]; [right; discriminate|left; reflexivity].
Qed.
Print Assumptions C36_no_placeholder.

(** Paillier keeps gains of magnitude up to 2^29 within 1e-6, for every key of at least 1000 bits and every nonce. *)
Theorem C36_gain_roundtrip n sk r x : keypair n sk -> (2 ^ 1000 <= n)%Z -> Z.gcd r n = 1%Z -> (qabs x <= zq (2 ^ 29))%Qc ->
  exists e v, pk_encrypt n (PyFloat x) None None r = Ok e /\ sk_decrypt sk (CEnc e) = Ok v /\
    (qabs (FixedPointModel.num v - x) <= FLOAT_ZERO)%Qc.
Proof.
  intros KP Hbig Hr Hx. destruct (keypair_good n sk KP) as [G <-].
  destruct (gain_roundtrip sk G Hbig x r Hx Hr) as (e & v & E1 & E2 & _ & E3). eauto.
Qed.
Print Assumptions C36_gain_roundtrip.

(** Without hosts the choice fails: there is no entry 1 to look at. *)
Theorem C36_no_host_refuted : exists (dec gdec : Qc -> res Qc) guest, find_best_split dec gdec guest [] = Err IndexError.
Proof. exists (fun c => Ok c), (fun c => Ok c), (SInfo GuestSite None None None None (Some (zq 0))). reflexivity. Qed.
Print Assumptions C36_no_host_refuted.

Definition ex_guest : splitinfo Qc Qc := SInfo GuestSite (Some 1) (Some 1) (Some (zq (-3))) (Some (zq 2)) (Some (zq 6)).
Definition ex_host (i : Z) (f : option nat) (x : Qc) : splitinfo Qc Qc :=
  SInfo (HostSite i) f None (option_map (fun _ => zq 1) f) (option_map (fun _ => zq 1) f) (Some x).
(** Two hosts with equal gains above the guest's: the first one is taken; and a gain within 1e-6 leaves the guest in place. *)
Example C36_ex :
  let id := fun c : Qc => Ok c in
  (match find_best_split id id ex_guest [ex_host 4 None (- FLOAT_ZERO)%Qc; ex_host 5 (Some 3) (zq 7); ex_host 6 (Some 2) (zq 7)] with
   | Ok s => (si_site s, si_fid s) = (HostSite 5, Some 3) | Err _ => False end) /\
  (match find_best_split id id ex_guest [ex_host 4 None (- FLOAT_ZERO)%Qc; ex_host 5 (Some 3) (zq 6 + FLOAT_ZERO)%Qc] with
   | Ok s => (si_site s, si_fid s) = (GuestSite, Some 1) | Err _ => False end).
Proof. split; vm_compute; reflexivity. Qed.

(** C37. The objective a leaf weight is meant to minimise. *)
Definition leaf_objective (lam g h w : Qc) : Qc := (g * w + (h + lam) * w * w / zq 2)%Qc.

Lemma qc_pos_ne (a : Qc) : (0 < a)%Qc -> a <> 0%Qc.
Proof. intros H ->. exact (Qclt_not_eq _ _ H eq_refl). Qed.
Lemma qc_div_nonneg a b : (0 <= a)%Qc -> (0 < b)%Qc -> (0 <= a / b)%Qc.
Proof.
  intros Ha Hb. destruct (Qclt_le_dec (a / b) 0) as [L|L]; [|exact L]. exfalso.
  assert (X : ((a / b) * b = a)%Qc) by (field; now apply qc_pos_ne). qnra.
Qed.
Lemma qc_mul_pos (a b : Qc) : (0 < a)%Qc -> (0 < b)%Qc -> (0 < a * b)%Qc.
Proof. intros. qnra. Qed.
Lemma qc_sq_nonneg (a : Qc) : (0 <= a * a)%Qc.
Proof. destruct (Qclt_le_dec a 0); qnra. Qed.

Lemma zq_2 : zq 2 = (1 + 1)%Qc.
Proof. apply Qc_is_canon. reflexivity. Qed.
(** With a positive denominator, node_weight is the unique minimiser of the objective and the minimum is half the negated score. *)
Theorem C37_weight_optimal lam g h : (0 < h + lam)%Qc ->
  exists w, node_weight lam g h = Ok w /\
    leaf_objective lam g h w = (- (g * g / (h + lam)) / zq 2)%Qc /\
    forall v, (leaf_objective lam g h w <= leaf_objective lam g h v)%Qc /\
      (leaf_objective lam g h v = leaf_objective lam g h w -> v = w).
Proof.
  intros Hp. set (w := (- g / (lam + h))%Qc). exists w.
  assert (N : (lam + h)%Qc <> 0%Qc) by (apply qc_pos_ne; qlra). assert (N' : (h + lam)%Qc <> 0%Qc) by now apply qc_pos_ne.
  assert (N2 : (1 + 1)%Qc <> 0%Qc) by (rewrite <- zq_2; apply ex_pos; reflexivity).
  split. { unfold node_weight. rewrite zq_0. destruct (decide _); [contradiction|reflexivity]. }
  assert (EQ : forall v, leaf_objective lam g h v = (leaf_objective lam g h w + (h + lam) * ((v - w) * (v - w)) / zq 2)%Qc).
  { intros v. unfold leaf_objective, w. rewrite zq_2. field. auto. }
  split; [unfold leaf_objective, w; rewrite zq_2; field; auto|]. intros v. rewrite (EQ v).
  assert (P : (0 <= (h + lam) * ((v - w) * (v - w)) / zq 2)%Qc).
  { apply qc_div_nonneg; [|reflexivity]. pose proof (qc_sq_nonneg (v - w)). qnra. }
  split; [qlra|]. intros E. destruct (Qc_eq_dec v w) as [->|NE]; [reflexivity|]. exfalso.
  assert (Z0 : ((h + lam) * ((v - w) * (v - w)) / zq 2 = 0)%Qc) by qlra.
  assert (Z1 : ((h + lam) * ((v - w) * (v - w)) = 0)%Qc).
  { replace ((h + lam) * ((v - w) * (v - w)))%Qc with (((h + lam) * ((v - w) * (v - w)) / zq 2) * zq 2)%Qc by (rewrite zq_2; field; exact N2). rewrite Z0. ring. }
  apply Qcmult_integral in Z1 as [Z1|Z1]; [contradiction|]. apply Qcmult_integral in Z1. apply NE. destruct Z1; qlra.
Qed.
Print Assumptions C37_weight_optimal.

(** The split gain is twice the drop of the objective when one optimal leaf is replaced by two. *)
Theorem C37_gain_is_drop lam g h gl hl : (0 < h + lam)%Qc -> (0 < hl + lam)%Qc -> (0 < (h - hl) + lam)%Qc ->
  exists x w wl wr, split_gain lam g h gl hl (g - gl)%Qc (h - hl)%Qc = Ok x /\ node_weight lam g h = Ok w /\
    node_weight lam gl hl = Ok wl /\ node_weight lam (g - gl)%Qc (h - hl)%Qc = Ok wr /\
    x = (zq 2 * (leaf_objective lam g h w - (leaf_objective lam gl hl wl + leaf_objective lam (g - gl) (h - hl) wr)))%Qc.
Proof.
  intros H1 H2 H3. destruct (C37_weight_optimal lam g h H1) as (w & Ew & Mw & _), (C37_weight_optimal lam gl hl H2) as (wl & El & Ml & _),
    (C37_weight_optimal lam (g - gl)%Qc (h - hl)%Qc H3) as (wr & Er & Mr & _).
  exists (gain_of lam g h gl hl), w, wl, wr.
  split. { apply split_gain_ok. unfold no_zero. rewrite zq_0. auto using qc_pos_ne. }
  split; [exact Ew|]. split; [exact El|]. split; [exact Er|]. rewrite Mw, Ml, Mr. unfold gain_of, score.
  assert (N2 : (1 + 1)%Qc <> 0%Qc) by (rewrite <- zq_2; apply ex_pos; reflexivity).
  rewrite zq_2. field. auto using qc_pos_ne.
Qed.
Print Assumptions C37_gain_is_drop.

(** With non-negative hessians the gain is bounded below by the regularisation term, so it is non-negative if lambda = 0. *)
Theorem C37_gain_lower_bound lam g h gl hl : (0 <= lam)%Qc -> (0 <= hl)%Qc -> (0 <= h - hl)%Qc -> (0 < hl + lam)%Qc -> (0 < (h - hl) + lam)%Qc ->
  exists x, split_gain lam g h gl hl (g - gl)%Qc (h - hl)%Qc = Ok x /\
    (- (lam * (g * g) / ((h + lam) * (h + lam + lam))) <= x)%Qc /\ (lam = 0%Qc -> (0 <= x)%Qc).
Proof.
  intros HL H1 H2 P1 P2.
  assert (P3 : (0 < h + lam)%Qc) by qlra. assert (P4 : (0 < h + lam + lam)%Qc) by qlra.
  exists (gain_of lam g h gl hl). split.
  { apply split_gain_ok. unfold no_zero. rewrite zq_0. auto using qc_pos_ne. }
  set (A := (hl + lam)%Qc) in *. set (B := ((h - hl) + lam)%Qc) in *.
  assert (EQ : gain_of lam g h gl hl = (((B * gl - A * (g - gl)) * (B * gl - A * (g - gl))) / (A * B * (h + lam + lam))
     - lam * (g * g) / ((h + lam) * (h + lam + lam)))%Qc).
  { unfold gain_of, score, A, B. field. fold A B. auto 6 using qc_pos_ne. }
  assert (Q : (0 <= ((B * gl - A * (g - gl)) * (B * gl - A * (g - gl))) / (A * B * (h + lam + lam)))%Qc).
  { apply qc_div_nonneg; [apply qc_sq_nonneg|]. repeat apply qc_mul_pos; assumption. }
  rewrite EQ. split; [qlra|]. intros ->. replace (0 * (g * g) / ((h + 0) * (h + 0 + 0)))%Qc with 0%Qc.
  - qlra.
  - field. try split; apply qc_pos_ne; qlra.
Qed.
Print Assumptions C37_gain_lower_bound.

(** With lambda > 0 a split can have negative gain. *)
Theorem C37_gain_nonneg_refuted : exists lam g h gl hl x, (0 < lam)%Qc /\ (0 <= hl)%Qc /\ (0 <= h - hl)%Qc /\
  split_gain lam g h gl hl (g - gl)%Qc (h - hl)%Qc = Ok x /\ (x < 0)%Qc.
Proof.
  exists (zq 1), (zq 2), (zq 2), (zq 1), (zq 1).
  destruct (split_gain (zq 1) (zq 2) (zq 2) (zq 1) (zq 1) (zq 2 - zq 1)%Qc (zq 2 - zq 1)%Qc) as [x|] eqn:E; [|vm_compute in E; discriminate].
  exists x. split; [reflexivity|]. split; [vm_compute; discriminate|]. split; [vm_compute; discriminate|]. split; [reflexivity|].
  vm_compute in E. injection E as <-. reflexivity.
Qed.
Print Assumptions C37_gain_nonneg_refuted.

Example C37_ex : (0 < zq 3 + zq 1)%Qc /\ (0 < zq 1 + zq 1)%Qc /\ (0 < (zq 3 - zq 1) + zq 1)%Qc /\
  match node_weight (zq 1) (zq 8) (zq 3) with Ok w => this w = (-2 # 1)%Q | Err _ => False end /\
  match split_gain (zq 1) (zq 8) (zq 3) (zq (-4)) (zq 1) (zq 8 - zq (-4))%Qc (zq 3 - zq 1)%Qc with Ok x => this x = (40 # 1)%Q | Err _ => False end.
Proof. repeat split; vm_compute; reflexivity. Qed.
