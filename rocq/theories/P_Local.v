(** C63, C64: the program without a federation, and how its trees compare with those of the federation. *)
From Verif Require Import JoinMain P_Tree P_Predict P_Boost.
Local Open Scope nat_scope.

(** ** C63 *)
Section Alone.
  Context {K : Type} `{EqDecision K} {C : Type} (U : list K) (cfg : pcfg K) (me : party K) (it : imp_type) (d : nat).
  Local Notation lam := (reg_lambda (c_par cfg)).
  Local Notation mi := (min_impurity (c_par cfg)).
  Local Notation owns st := (site_party 0 noname cfg (fun _ => cfg) (t_mask st) (fun _ => [])).

  (** One tree. [gh] are the gradients, [enc] the encryption whose result the program throws away. The tree is the greedy one on
      the party's own columns, well formed, with weights -G/(H+lambda), and every row gets the weight of the leaf it reaches. *)
  Theorem C63_tree gh vg vh (enc : dtable K (Qc * Qc) -> res (dtable K (C * C))) ghc :
    alone_ok U cfg me gh vg vh -> it <> IOther -> c_depth cfg = S d -> (0 < lam)%Qc -> (forall k, k ∈ U -> (0 <= vh k)%Qc) -> enc gh = Ok ghc ->
    exists st t w, local_fit cfg it gh enc = Ok st /\
      learn U lam mi me [] vg vh vg vh (fun x => x) Ok d = Ok t /\ repr (own_site noname) (t_nodes st) (Mr 0 cfg (fun _ => cfg) (t_mask st) (fun _ => [])) 0 t /\
      greedy U lam mi me [] vg vh d t (fun _ => true) /\
      well_formed lam (t_nodes st) /\ 1 <= length (t_nodes st) <= 2 ^ c_depth cfg - 1 /\ (forall p, chain (t_nodes st) 0 p -> length p <= c_depth cfg - 1) /\
      t_weights st = Some w /\ NoDup (dt_keys w) /\ (forall k, k ∈ dt_keys w <-> k ∈ U) /\ forall k v, (k, v) ∈ dt_data w -> reaches (owns st) (t_nodes st) k 0 v.
  Proof.
    intros AL Hit ED L V2 Ee. destruct (plain_total U me [] vg vh lam mi d L V2) as (t & Et). destruct (local_fit_ok U cfg me gh vg vh it Hit AL enc ghc d t Ee ED Et) as (st & hm & EF & FP).
    destruct (grow_consistent _ _ _ _ _ _ _ _ _ _ _ _ _ _ _ _ Et) as [CO DE].
    assert (LT : learnt U 0 cfg (fun _ => cfg) me [] noname it t st []) by (exists hm; auto).
    destruct (learnt_wf U 0 cfg (fun _ => cfg) me [] noname it t st [] d LT CO DE) as (W & SZ & PP). pose proof (learnt_repr U 0 cfg (fun _ => cfg) me [] noname it t st [] LT) as RP.
    destruct (f_weights _ _ _ _ _ _ _ _ _ _ _ FP) as (w & Ew & Ww & GW). exists st, t, w. rewrite ED. replace (S d) with (d + 1) by lia.
    split; [exact EF|]. split; [exact Et|]. split; [exact RP|]. split; [exact (grow_greedy U lam mi me [] vg vh d _ t Et)|]. split; [exact W|]. split; [exact SZ|]. split; [intros p Hp; specialize (PP p Hp); lia|].
    split; [exact Ew|split; [exact Ww|split]].
    - intros k. rewrite <- tget_is_Some. split; [intros [v Hv]; now apply GW in Hv as [Hv _]|]. intros Hk. exists (route me [] t k). now apply GW.
    - intros k v Hv. apply tget_elem in Hv; [|exact Ww]. apply GW in Hv as [Hk ->].
      apply (tree_reaches U 0 cfg (fun _ => cfg) me [] noname (al_party _ _ _ _ _ _ AL) ltac:(intros i p Hp; now rewrite lookup_nil in Hp) eq_refl); assumption.
  Qed.
  (** If encryption raises, so does training, although nothing needs the ciphertexts. *)
  Theorem C63_encryption gh (enc : dtable K (Qc * Qc) -> res (dtable K (C * C))) e : enc gh = Err e -> local_fit cfg it gh enc = Err e.
  Proof. intros E. unfold local_fit. now rewrite E. Qed.
End Alone.

(** Boosting. The trees are those of the centralised boosting loop on the party's own columns, the model stores them, the scores are
    the sums of learning_rate times the weights, the losses are those of the rounds, training stops as the parameters say, and
    predicting the training rows gives the scores of training. *)
Section AloneBoost.
  Context {K : Type} `{EqDecision K} {C : Type} (rnd : Qc -> Qc) (pred : loss_kind -> list Qc -> list Qc) (lossf : loss_kind -> dtable K nat -> dtable K (list Qc) -> Qc).
  Context (U : list K) (cfg : pcfg K) (me : party K) (it : imp_type) (P : bparams) (kind : loss_kind) (dim : nat) (y : dtable K nat) (lab : K -> nat).
  Context (draw : nat -> nat -> nat -> list nat) (enc : nat -> dtable K (Qc * Qc) -> res (dtable K (C * C))) (d : nat).
  Local Notation lam := (reg_lambda (c_par cfg)).
  Local Notation mi := (min_impurity (c_par cfg)).
  Local Notation ready := (alone_ready rnd pred U cfg me P kind dim y lab draw enc d).
  Local Notation train := (local_train rnd pred lossf P cfg it kind dim y draw enc).
  Local Notation boosted T := (boosted U me [] lab kind dim rnd (b_lr P) pred
    (fun j vg vh t => learn U lam mi (with_valid me (gvalid cfg P draw j)) [] vg vh vg vh (fun x => x) Ok d = Ok t) T).
  (** The stored trees stand for [T]. *)
  Definition model_alone (T : list dtree) (st : @bstate K) : Prop := model_of 0 cfg (fun _ => cfg) noname T st [].

  Lemma alone_boosted T : BoostSpec.boosted U me [] lab kind dim rnd (b_lr P) pred (alone_tree U cfg me P draw d) T -> boosted T.
  Proof. intros B r c t Hc Ht. destruct (B r c t Hc Ht) as (vg & vh & (G & _) & V). eauto. Qed.

  Theorem C63_boost : ready -> it <> IOther -> exists st T, train = Ok st /\ boosted T /\ model_alone T st /\ length T = length (bs_hist st) * dim /\ NoDup (dt_keys (bs_F st)) /\
    (forall k f, (k, f) ∈ dt_data (bs_F st) <-> k ∈ U /\ f = map (fun c => add_up rnd (b_lr P) (map (fun r => wt me [] T (r * dim + c) k) (seq 0 (length (bs_hist st))))) (seq 0 dim)) /\
    losses rnd pred lossf U me [] P kind dim y T (bs_hist st) /\ stops rnd (b_early P) (b_tol P) (b_rounds P) (bs_hist st).
  Proof.
    intros RD Hit. destruct (local_train_ok rnd pred lossf U cfg me it Hit P kind dim y lab draw enc d RD) as (T & st & ET & I & LO & ST). exists st, T. split; [exact ET|].
    destruct I as [LT BO [WF GF] [L1 _] STO IMP]. split; [exact (alone_boosted T BO)|]. split; [|rewrite Nat.add_0_r in LT; split; [exact LT|split; [exact WF|split; [|auto]]]].
    - split; [exact L1|]. intros j t Hj. destruct (STO j t Hj) as (g & h & A & _ & B). exists g, h. split; [exact A|]. split; [intros i Hi; lia|exact B].
    - intros k f. rewrite <- tget_elem by exact WF. rewrite GF, mids_0. reflexivity.
  Qed.
  Theorem C63_predict st raw : ready -> it <> IOther -> train = Ok st -> raw_of cfg raw ->
    exists F, local_score rnd (b_lr P) dim (bs_trees st) raw = Ok F /\ NoDup (dt_keys F) /\ forall k f, (k, f) ∈ dt_data F <-> (k, f) ∈ dt_data (bs_F st).
  Proof.
    intros RD Hit ET RG. destruct (local_train_ok rnd pred lossf U cfg me it Hit P kind dim y lab draw enc d RD) as (T & st' & ET' & I & _). rewrite ET in ET'. injection ET' as <-.
    destruct (local_score_ok rnd pred U cfg me it P kind dim y lab draw enc d RD T st raw I RG) as (F & EF & WF & GF). exists F. split; [exact EF|]. split; [exact WF|].
    intros k f. rewrite <- tget_elem by exact WF. rewrite GF. apply tget_elem. exact (proj1 (bi_F _ _ _ _ _ _ _ _ _ _ _ _ _ _ _ _ _ _ _ _ I)).
  Qed.
End AloneBoost.

(** A tree of a federated model, used without the federation: if any row reaches a node of a host, prediction raises. *)
Theorem C63_foreign {K} `{EqDecision K} nh sname T gm hm t (raw : dtable K (dict nat Qc)) hraw k i f x l r :
  (forall i, i < nh -> sname i <> GuestSite) -> prepr nh sname T gm hm 0 t -> NoDup (dt_keys raw) -> k ∈ dt_keys raw -> gdown (jrow raw hraw k) t = PN (Some i) f x l r ->
  local_predict T gm raw = Err AttributeError.
Proof.
  intros NM RT W Hk E. unfold local_predict.
  destruct (dt_mapValues_rel (fun _ => Ok (0, 1%Z)) (fun _ (_ : dict nat Qc) s => s = (0, 1%Z)) raw W) as (data & Ed & Wd & _ & Gd). { eauto. }
  assert (DK : forall k, is_Some (tget data k) <-> is_Some (tget raw k)).
  { intros k'. specialize (Gd k'). destruct (tget raw k'), (tget data k'); try contradiction; split; intros A; first [eexists; reflexivity|destruct A as [? A]; discriminate A]. }
  assert (AT : at_tree nh sname T gm hm raw data (fun _ => t)).
  { split; [exact Wd|]. intros k' s Hs. split; [apply DK; eauto|]. specialize (Gd k'). rewrite Hs in Gd. destruct (tget raw k'); [subst; exact RT|contradiction]. }
  destruct (predict_local_ok nh sname T gm hm NM raw hraw W data (fun _ => t) None AT ltac:(discriminate)) as (w & rest & Ep & _ & Wr & _ & _ & Dn).
  rewrite Ed. cbn [mbind res_bind]. rewrite Ep. cbn [mbind res_bind fst snd].
  assert (Hd : is_Some (tget data k)) by (apply DK, tget_is_Some; exact Hk).
  destruct (tget rest k) as [s|] eqn:Es; [|destruct (Dn k Hd Es) as (v & X); rewrite E in X; discriminate X].
  apply tget_elem in Es; [|exact Wr]. unfold dt_count. destruct (dt_data rest) as [|a b]; [now apply elem_of_nil in Es|reflexivity].
Qed.
Print Assumptions C63_tree.
Print Assumptions C63_encryption.
Print Assumptions C63_boost.
Print Assumptions C63_predict.
Print Assumptions C63_foreign.

(** ** C64 *)
Lemma moved_size {K} (ps : list (party K)) t : tsize (moved_tree ps t) = tsize t.
Proof. induction t as [w G H|w G H c g l IHl r IHr]; [reflexivity|]. cbn [moved_tree tsize]. now rewrite IHl, IHr. Qed.

(** With subsample_feature_rate 1 all features are used. *)
Lemma all_true (v : list bool) : length (List.filter (fun b : bool => b) v) = length v -> v = repeat true (length v).
Proof.
  assert (X : forall v : list bool, length (List.filter (fun b : bool => b) v) <= length v) by (clear; intros v; induction v as [|[] v IH]; cbn; lia).
  induction v as [|b v IH]; [reflexivity|]. specialize (X v). destruct b; cbn.
  - intros [= E]. now rewrite <- IH.
  - intros E. lia.
Qed.
Lemma sample_all n rate draw : 1 <= n -> (Z.of_nat n <= 2 ^ 31)%Z -> rate = 1%Qc -> draws draw -> sample_valid_features n rate draw = Ok (repeat true n).
Proof.
  intros L1 L2 R D. rewrite R. assert (L3 : (Z.of_nat n <= 2 ^ 53)%Z) by (etransitivity; [exact L2|vm_compute; discriminate]). destruct (C49_sample n 1 draw L1 L3 eq_refl ltac:(discriminate) D) as (v & m & E & Lv & Lm & _ & Hm & _ & UP).
  rewrite E. f_equal. rewrite Qcmult_1_l in UP. rewrite (fround_zq (Z.of_nat n)) in UP by (rewrite Z.abs_eq by lia; exact L3).
  assert (m = n) as ->. { rewrite <- zq_1, <- zq_add in UP. apply (proj1 (zq_lt _ _)) in UP. lia. }
  rewrite <- Lv in *. now apply all_true.
Qed.

Lemma hosts_valid {K} (hosts : list (party K)) v : map p_valid (hosts_with hosts v) = map v (seq 0 (length hosts)).
Proof.
  unfold hosts_with. revert v. induction hosts as [|p hosts IH]; intros v; [reflexivity|]. cbn [length seq map imap]. f_equal.
  rewrite <- seq_shift, map_map. exact (IH (fun i => v (Datatypes.S i))).
Qed.

Section Joined.
  Context {K : Type} `{EqDecision K} {C : Type} (U : list K) (nh : nat) (gcfg : pcfg K) (hcfg : nat -> pcfg K) (guest : party K) (hosts : list (party K)) (sname : nat -> site) (it : imp_type).
  Context (jcfg : pcfg K) (d : nat).
  Local Notation lam := (reg_lambda (c_par gcfg)).
  Local Notation mi := (min_impurity (c_par gcfg)).
  Local Notation ps := (guest :: hosts).
  Local Notation joint := (join_parties guest hosts).
  (** The program without a federation has the same parameters, and all parties use the same limits on the number of rows. *)
  Definition same_parameters : Prop := reg_lambda (c_par jcfg) = lam /\ min_impurity (c_par jcfg) = mi /\ c_depth jcfg = c_depth gcfg /\
    Forall (fun p => p_min_sample p = p_min_sample guest /\ p_min_leaf p = p_min_leaf guest) hosts.

  (** One tree: the federated tree and the one grown on the joined columns are the same, up to the numbers of the columns, and give
      all rows the same weights. *)
  Theorem C64_tree gh gh' vg vh m st hs (enc : dtable K (Qc * Qc) -> res (dtable K (C * C))) ghc :
    parties_ok U nh gcfg hcfg guest hosts sname gh vg vh -> alone_ok U jcfg joint gh' vg vh -> same_parameters -> it <> IOther -> c_depth gcfg = S d -> (0 < lam)%Qc ->
    (forall k, k ∈ U -> (0 <= vh k)%Qc) -> enc gh' = Ok ghc -> nsteps step m (plain_sys nh gcfg hcfg sname it gh) (done st hs) ->
    exists t, learn U lam mi guest hosts vg vh vg vh (fun x => x) Ok d = Ok t /\ repr (own_site sname) (t_nodes st) (Mr nh gcfg hcfg (t_mask st) (hmask hs)) 0 t /\
      (clear_cut U lam mi guest hosts vg vh d t (fun _ => true) ->
       exists jst w w', local_fit jcfg it gh' enc = Ok jst /\ repr (own_site noname) (t_nodes jst) (Mr 0 jcfg (fun _ => jcfg) (t_mask jst) (fun _ => [])) 0 (moved_tree ps t) /\
         length (t_nodes jst) = length (t_nodes st) /\ t_weights st = Some w /\ t_weights jst = Some w' /\ forall k v, (k, v) ∈ dt_data w' <-> (k, v) ∈ dt_data w).
  Proof.
    intros PA AL (E1 & E2 & E3 & LIM) Hit ED L V2 Ee RUN. destruct (plain_main U nh gcfg hcfg guest hosts sname gh vg vh PA it Hit d ED L V2) as (t & st' & hs' & Et & A & LT).
    destruct (always_done _ _ _ _ _ _ A RUN) as [-> ->]. exists t. split; [exact Et|]. split; [exact (learnt_repr U nh gcfg hcfg guest hosts sname it t st' hs' LT)|]. intros CL.
    assert (LV : Forall (fun p => length (p_valid p) = length (p_nb p)) ps).
    { assert (X : forall c (p : party K), party_ok U c p -> length (p_valid p) = length (p_nb p)) by (intros c p [? ? ? ? ? ? B1 B2 B3 ? ?]; rewrite B1, B2, map_length; exact B3).
      constructor; [exact (X _ _ (pa_guest _ _ _ _ _ _ _ _ _ _ PA))|]. apply Forall_forall. intros p Hp. apply elem_of_list_lookup in Hp as (i & Hi). exact (X _ _ (pa_host _ _ _ _ _ _ _ _ _ _ PA i p Hi)). }
    pose proof (learn_joined U lam mi guest hosts vg vh L V2 LIM LV d t Et CL) as EJ. rewrite <- E1, <- E2 in EJ. rewrite <- E3 in ED.
    destruct (local_fit_ok U jcfg joint gh' vg vh it Hit AL enc ghc d _ Ee ED EJ) as (jst & hm & EF & FP).
    destruct LT as (hm' & _ & FP'). destruct (f_weights _ _ _ _ _ _ _ _ _ _ _ FP) as (w' & Ew' & Ww' & Gw'). destruct (f_weights _ _ _ _ _ _ _ _ _ _ _ FP') as (w & Ew & Ww & Gw).
    exists jst, w, w'. split; [exact EF|]. split; [exact (learnt_repr U 0 jcfg (fun _ => jcfg) joint [] noname it _ jst [] (ex_intro _ hm (conj eq_refl FP)))|].
    split; [rewrite (f_size _ _ _ _ _ _ _ _ _ _ _ FP), (f_size _ _ _ _ _ _ _ _ _ _ _ FP'); apply moved_size|]. split; [exact Ew|]. split; [exact Ew'|].
    intros k v. rewrite <- !tget_elem by assumption. rewrite Gw, Gw'. unfold learn in Et. now rewrite (route_moved U lam mi guest hosts vg vh d _ _ _ t Et k).
  Qed.

  Context (rnd : Qc -> Qc) (pred : loss_kind -> list Qc -> list Qc) (lossf : loss_kind -> dtable K nat -> dtable K (list Qc) -> Qc).
  Context (P : bparams) (kind : loss_kind) (dim : nat) (y : dtable K nat) (lab : K -> nat).
  Context (gdraw : nat -> nat -> nat -> list nat) (hdraw : nat -> nat -> nat -> nat -> list nat) (draw : nat -> nat -> nat -> list nat) (enc : nat -> dtable K (Qc * Qc) -> res (dtable K (C * C))).
  Local Notation plain := (plain_train_sys rnd pred lossf nh gcfg hcfg sname it P kind dim y gdraw hdraw).
  Local Notation gv := (gvalid gcfg P gdraw).
  Local Notation hv := (hvalid hcfg P hdraw).

  (** The whole model, if every tree may use the same columns in both programs and the loss does not depend on the order of the
      rows. *)
  Theorem C64_boost m st hs : ready rnd pred U nh gcfg hcfg guest hosts sname P kind dim y lab gdraw hdraw d -> alone_ready rnd pred U jcfg joint P kind dim y lab draw enc d ->
    same_parameters -> it <> IOther -> (forall j, gvalid jcfg P draw j = gv j ++ concat (map (hv j) (seq 0 nh))) ->
    (b_early P = true -> forall a b, NoDup (dt_keys a) -> NoDup (dt_keys b) -> (forall k v, (k, v) ∈ dt_data a <-> (k, v) ∈ dt_data b) -> lossf kind y a = lossf kind y b) ->
    nsteps step m plain (done st hs) ->
    exists T jst T', model_of nh gcfg hcfg sname T st hs /\ local_train rnd pred lossf P jcfg it kind dim y draw enc = Ok jst /\ model_alone jcfg T' jst /\
      (clear_model rnd pred U guest hosts P kind dim lab lam mi d gv hv T ->
       T' = map (moved_tree ps) T /\ length (bs_hist jst) = length (bs_hist st) /\ forall k f, (k, f) ∈ dt_data (bs_F jst) <-> (k, f) ∈ dt_data (bs_F st)).
  Proof.
    intros RD AR (E1 & E2 & E3 & LIM) Hit JV LX RUN. destruct (pplain rnd pred lossf U nh gcfg hcfg guest hosts sname it P kind dim y lab gdraw hdraw d RD Hit) as (T & st' & hs' & A & TR).
    destruct (always_done _ _ _ _ _ _ A RUN) as [-> ->]. destruct (C63_boost rnd pred lossf U jcfg joint it P kind dim y lab draw enc d AR Hit) as (jst & T' & ET & B' & MO' & LT' & WF' & GF' & LO' & ST').
    exists T, jst, T'. split; [exact (trained_model rnd pred lossf U nh gcfg hcfg guest hosts sname it P kind dim y lab gdraw hdraw d RD _ T st' hs' TR)|]. split; [exact ET|]. split; [exact MO'|]. intros CL.
    pose proof (trained_boosted rnd pred lossf U nh gcfg hcfg guest hosts sname it P kind dim y lab d _ T st' hs' TR) as B.
    destruct (trained_counts rnd pred lossf U nh gcfg hcfg guest hosts sname it P kind dim y lab d _ T st' hs' TR) as (LT & _).
    destruct (trained_scores rnd pred lossf U nh gcfg hcfg guest hosts sname it P kind dim y lab d _ T st' hs' TR) as [WF GF]. destruct TR as [_ LO ST].
    destruct (rd_parties _ _ _ _ _ _ _ _ _ _ _ _ _ _ _ _ _ RD) as (gh0 & vg0 & vh0 & PA).
    rewrite E1, E2 in B'.
    destruct (pa_hosts _ _ _ _ _ _ _ _ _ _ PA) as [LH _].
    assert (LN : forall c (p : party K), party_ok U c p -> length (p_nb p) = length (c_points c)) by (intros c p X; rewrite (po_nb _ _ _ X), map_length; reflexivity).
    destruct (rd_features _ _ _ _ _ _ _ _ _ _ _ _ _ _ _ _ _ RD) as (F1 & F2 & F3). destruct (rd_rate _ _ _ _ _ _ _ _ _ _ _ _ _ _ _ _ _ RD) as [R0 R1]. destruct (rd_draws _ _ _ _ _ _ _ _ _ _ _ _ _ _ _ _ _ RD) as [D1 D2].
    assert (LG : forall j, length (gv j) = length (p_nb guest)).
    { intros j. rewrite (LN _ _ (pa_guest _ _ _ _ _ _ _ _ _ _ PA)). unfold gvalid. destruct (sample_ok (length (c_points gcfg)) (b_rate P) (gdraw j)) as (v & Ev & Lv & _); auto; [lia|]. now rewrite Ev. }
    assert (LHV : forall j i p, hosts !! i = Some p -> length (hv j i) = length (p_nb p)).
    { intros j i p Hp. rewrite (LN _ _ (pa_host _ _ _ _ _ _ _ _ _ _ PA i p Hp)). assert (Hi : i < nh) by (rewrite <- LH; eapply lookup_lt_Some; eauto). destruct (F3 i Hi).
      unfold hvalid. destruct (sample_ok (length (c_points (hcfg i))) (b_rate P) (hdraw i j)) as (v & Ev & Lv & _); auto; [lia|]. now rewrite Ev. }
    destruct (models_agree rnd pred lossf U guest hosts P kind dim y lab lam mi d gv hv (gvalid jcfg P draw) (rd_dim _ _ _ _ _ _ _ _ _ _ _ _ _ _ _ _ _ RD) (rd_lambda _ _ _ _ _ _ _ _ _ _ _ _ _ _ _ _ _ RD)
      (rd_rnd _ _ _ _ _ _ _ _ _ _ _ _ _ _ _ _ _ RD) (rd_pred _ _ _ _ _ _ _ _ _ _ _ _ _ _ _ _ _ RD) (rd_labels _ _ _ _ _ _ _ _ _ _ _ _ _ _ _ _ _ RD) LIM LG LHV) with (T := T) (T' := T') (hist := bs_hist st') (hist' := bs_hist jst) as [ET' SC]; auto.
    { intros j. rewrite JV. cbn [map concat with_valid p_valid]. f_equal. f_equal. rewrite hosts_valid, LH. reflexivity. }
    { intros EB a b Wa Wb AB. apply (LX EB); auto. intros k v. rewrite <- !tget_elem by assumption. apply AB. }
    assert (EH : length (bs_hist jst) = length (bs_hist st')).
    { apply (f_equal length) in ET'. rewrite map_length, LT, LT' in ET'. pose proof (rd_dim _ _ _ _ _ _ _ _ _ _ _ _ _ _ _ _ _ RD). nia. }
    split; [exact ET'|]. split; [exact EH|]. intros k f. rewrite GF', GF. specialize (SC k). unfold scores at 1, score in SC. rewrite SC. reflexivity.
  Qed.

  (** With subsample_feature_rate 1 both programs use all columns for every tree. *)
  Theorem C64_boost_all m st hs : ready rnd pred U nh gcfg hcfg guest hosts sname P kind dim y lab gdraw hdraw d -> alone_ready rnd pred U jcfg joint P kind dim y lab draw enc d ->
    same_parameters -> it <> IOther -> b_rate P = 1%Qc ->
    (b_early P = true -> forall a b, NoDup (dt_keys a) -> NoDup (dt_keys b) -> (forall k v, (k, v) ∈ dt_data a <-> (k, v) ∈ dt_data b) -> lossf kind y a = lossf kind y b) ->
    nsteps step m plain (done st hs) ->
    exists T jst T', model_of nh gcfg hcfg sname T st hs /\ local_train rnd pred lossf P jcfg it kind dim y draw enc = Ok jst /\ model_alone jcfg T' jst /\
      (clear_model rnd pred U guest hosts P kind dim lab lam mi d gv hv T ->
       T' = map (moved_tree ps) T /\ length (bs_hist jst) = length (bs_hist st) /\ forall k f, (k, f) ∈ dt_data (bs_F jst) <-> (k, f) ∈ dt_data (bs_F st)).
  Proof.
    intros RD AR SP Hit R1 LX RUN. apply (C64_boost m st hs RD AR SP Hit); [|exact LX|exact RUN]. intros j.
    destruct (rd_features _ _ _ _ _ _ _ _ _ _ _ _ _ _ _ _ _ RD) as (F1 & F2 & F3). destruct (rd_draws _ _ _ _ _ _ _ _ _ _ _ _ _ _ _ _ _ RD) as [D1 D2]. destruct (ar_features _ _ _ _ _ _ _ _ _ _ _ _ _ AR) as [F4 F5].
    destruct (rd_parties _ _ _ _ _ _ _ _ _ _ _ _ _ _ _ _ _ RD) as (gh0 & vg0 & vh0 & PA). destruct (ar_alone _ _ _ _ _ _ _ _ _ _ _ _ _ AR) as (gh1 & vg1 & vh1 & AL).
    unfold gvalid at 1. rewrite (sample_all _ _ _ F4 F5 R1 (ar_draws _ _ _ _ _ _ _ _ _ _ _ _ _ AR j)). unfold gvalid. rewrite (sample_all _ _ _ F1 F2 R1 (D1 j)).
    pose proof (po_nb _ _ _ (al_party _ _ _ _ _ _ AL)) as EN. cbn [join_parties p_nb map concat] in EN. apply (f_equal length) in EN. rewrite app_length, map_length in EN.
    rewrite (po_nb _ _ _ (pa_guest _ _ _ _ _ _ _ _ _ _ PA)), map_length in EN. rewrite <- EN, repeat_app. f_equal.
    destruct (pa_hosts _ _ _ _ _ _ _ _ _ _ PA) as [LH _]. pose proof (pa_host _ _ _ _ _ _ _ _ _ _ PA) as PH.
    assert (HV : forall i, i < nh -> hv j i = repeat true (length (c_points (hcfg i)))). { intros i Hi. unfold hvalid. destruct (F3 i Hi) as [F6 F7]. now rewrite (sample_all _ _ _ F6 F7 R1 (D2 i j Hi)). }
    transitivity (concat (map (fun i => repeat true (length (c_points (hcfg i)))) (seq 0 nh))); [|f_equal; apply map_ext_in; intros i Hi; apply in_seq in Hi; symmetry; apply HV; lia].
    clear - LH PH. revert nh LH. assert (G : forall a l, (forall i p, l !! i = Some p -> party_ok U (hcfg (a + i)) p) ->
      repeat true (length (concat (map p_nb l))) = concat (map (fun i => repeat true (length (c_points (hcfg i)))) (seq a (length l)))).
    { intros a l. revert a. induction l as [|p l IH]; intros a HP; [reflexivity|]. cbn [length seq map concat]. rewrite app_length, repeat_app. f_equal.
      - rewrite (po_nb _ _ _ (HP 0 p eq_refl)), map_length, Nat.add_0_r. reflexivity.
      - apply IH. intros i q Hq. replace (Datatypes.S a + i) with (a + Datatypes.S i) by lia. now apply HP. }
    intros n <-. apply (G 0). exact PH.
  Qed.
End Joined.
Print Assumptions C64_tree.
Print Assumptions C64_boost.
Print Assumptions C64_boost_all.

(** ** Examples: the parties of P_Tree, and one party with both columns *)
Definition jx_data (gb hb : list nat) : dtable nat (dict nat nat) :=
  DT (map (fun kb => (kb.1, (if kb.2.1 =? 0 then [] else [(0, kb.2.1)]) ++ (if kb.2.2 =? 0 then [] else [(1, kb.2.2)]))) (combine (seq 0 (length gb)) (combine gb hb))).
Definition jx_cfg (depth step : nat) (gb hb : list nat) : pcfg nat := PCfg ex_par depth step [[zq 1; zq 2]; [zq 1; zq 2]] [(0, 0); (1, 0)] [true; true] (jx_data gb hb).
Definition jx_raw (gb hb : list nat) : dtable nat (dict nat Qc) :=
  DT (map (fun kb => (kb.1, [(0, zq (Z.of_nat (kb.2.1) + 1)); (1, zq (Z.of_nat (kb.2.2) + 1))])) (combine (seq 0 (length gb)) (combine gb hb))).
Definition jx_joint (gb hb : list nat) : party nat := join_parties (ex_party gb) [ex_party hb].

Lemma jx_party_ok gb hb depth step : length gb = 4 -> length hb = 4 -> Forall (fun b => b <= 2) gb -> Forall (fun b => b <= 2) hb -> party_ok (seq 0 4) (jx_cfg depth step gb hb) (jx_joint gb hb).
Proof.
  intros L L' F F'. destruct gb as [|b0 [|b1 [|b2 [|b3 [|]]]]]; try discriminate. destruct hb as [|c0 [|c1 [|c2 [|c3 [|]]]]]; try discriminate. repeat rewrite Forall_cons in F, F'.
  destruct F as (F0 & F1 & F2 & F3 & _), F' as (G0 & G1 & G2 & G3 & _).
  assert (EL : forall k r, (k, r) ∈ dt_data (jx_data [b0; b1; b2; b3] [c0; c1; c2; c3]) -> exists b c, nth k [b0; b1; b2; b3] 0 = b /\ nth k [c0; c1; c2; c3] 0 = c /\ b <= 2 /\ c <= 2 /\
    r = (if b =? 0 then [] else [(0, b)]) ++ (if c =? 0 then [] else [(1, c)])).
  { intros k r Hr. cbn in Hr. repeat rewrite elem_of_cons in Hr. destruct Hr as [[= -> ->]|[[= -> ->]|[[= -> ->]|[[= -> ->]|Hr]]]]; [cbn; eauto 10..|]. now apply elem_of_nil in Hr. }
  split; [ndk|intros k; reflexivity| | | | |reflexivity..].
  - intros k r Hr. destruct (EL k r Hr) as (b & c & _ & _ & _ & _ & ->). destruct (b =? 0), (c =? 0); ndk.
  - intros k r f Hr Hf. destruct (EL k r Hr) as (b & c & E & E' & _ & _ & ->). cbn in Hf. destruct f as [|[|f]]; [| |lia]; cbn [jx_joint join_parties ex_party p_bin p_nb bin_at length Nat.ltb Nat.leb Nat.sub].
    + rewrite E. unfold bin_of. destruct b, c; reflexivity.
    + rewrite E'. unfold bin_of. destruct b, c; reflexivity.
  - intros k r f v Hr Hv. destruct (EL k r Hr) as (b & c & _ & _ & Lb & Lc & ->). exists [zq 1; zq 2].
    destruct b as [|b], c as [|c]; cbn in Hv; repeat match type of Hv with context [decide ?X] => destruct (decide X) end; try discriminate Hv; injection Hv as <-; subst f; auto.
  - intros [|[|f]] pts H; cbn in H; [injection H as <-..|discriminate]; exists 0; cbn; (split; [reflexivity|lia]).
Qed.
Lemma jx_alone gb hb depth step gh vg vh : length gb = 4 -> length hb = 4 -> Forall (fun b => b <= 2) gb -> Forall (fun b => b <= 2) hb -> step <> 0 ->
  dt_wf gh /\ (forall k, k ∈ dt_keys gh <-> k ∈ seq 0 4) /\ (forall k c, (k, c) ∈ dt_data gh -> c = (vg k, vh k)) -> alone_ok (seq 0 4) (jx_cfg depth step gb hb) (jx_joint gb hb) gh vg vh.
Proof.
  intros L L' F F' S G. split; [split; [apply NoDup_ListNoDup, seq_NoDup|discriminate]|now apply jx_party_ok|cbn; lia|exact S|cbn; lia|exact G].
Qed.
(** The hypotheses of C63_tree, C63_boost and of C64. *)
Example jx_hyps : alone_ok (seq 0 4) (jx_cfg 3 1 ex_gbins ex_hbins) (jx_joint ex_gbins ex_hbins) ex_gh ex_vg ex_vh /\ same_parameters ex_guest (ex_party ex_gbins) [ex_party ex_hbins] (jx_cfg 3 1 ex_gbins ex_hbins).
Proof.
  split; [apply jx_alone; try reflexivity; [repeat constructor..|discriminate|exact (pa_gh _ _ _ _ _ _ _ _ _ _ ex_ok)]|].
  split; [reflexivity|]. split; [reflexivity|]. split; [reflexivity|]. repeat constructor.
Qed.
Example jx_ready rnd rounds early : rnd_ok rnd -> alone_ready rnd bex_pred (seq 0 4) (jx_cfg 3 1 ex_gbins ex_hbins) (jx_joint ex_gbins ex_hbins) (bex_par rounds early) Sigmoid 1 bex_y (fun k => if k <? 2 then 0 else 1)
  (fun _ _ => bex_draw) (fun _ => Ok) 2.
Proof.
  intros RN. destruct (bex_ready rnd rounds early RN) as [R1 R2 R3 R4 R5 R6 R7 R8 R9 R10 R11]. split; auto.
  - exists ex_gh, ex_vg, ex_vh. exact (proj1 jx_hyps).
  - split; cbn; lia.
  - apply R4.
  - eauto.
Qed.
Lemma jx_raw_of : raw_of (jx_cfg 3 1 ex_gbins ex_hbins) (jx_raw ex_gbins ex_hbins).
Proof.
  assert (B : forall b, b <= 2 -> is_bin [zq 1; zq 2] (zq (Z.of_nat b + 1)) b).
  { intros [|[|[|b]]] Hb; [| | |lia]; (split; [cbn; lia|]; split).
    - intros i x Hi; lia.
    - intros x E. cbn in E. injection E as <-. now apply zq_le.
    - intros [|i] x Hi E; [cbn in E; injection E as <-; now apply zq_lt|lia].
    - intros x E. cbn in E. injection E as <-. now apply zq_le.
    - intros [|[|i]] x Hi E; [cbn in E; injection E as <-; now apply zq_lt..|lia].
    - intros x E. discriminate E. }
  split; [ndk|reflexivity|]. intros k row brow f pts H1 H2 H.
  assert (X : exists b c, b <= 2 /\ c <= 2 /\ row = [(0, zq (Z.of_nat b + 1)); (1, zq (Z.of_nat c + 1))] /\ brow = (if b =? 0 then [] else [(0, b)]) ++ (if c =? 0 then [] else [(1, c)])).
  { cbn in H1, H2. repeat rewrite elem_of_cons in H1. repeat rewrite elem_of_cons in H2.
    destruct H1 as [[= -> ->]|[[= -> ->]|[[= -> ->]|[[= -> ->]|X]]]]; [..|now apply elem_of_nil in X];
      destruct H2 as [[= ->]|[[= ->]|[[= ->]|[[= ->]|X]]]]; try discriminate; try (now apply elem_of_nil in X).
    - exists 0, 0. repeat split; lia. - exists 1, 0. repeat split; lia. - exists 0, 1. repeat split; lia. - exists 2, 1. repeat split; lia. }
  destruct X as (b & c & Hb & Hc & -> & ->). destruct f as [|[|f]]; [| |discriminate H]; cbn in H; injection H as <-.
  - change (sv_get _ 0 (zq 0)) with (zq (Z.of_nat b + 1)). replace (bin_of _ 0 _) with b; [now apply B|]. destruct b, c; reflexivity.
  - change (sv_get _ 1 (zq 0)) with (zq (Z.of_nat c + 1)). replace (bin_of _ 1 _) with c; [now apply B|]. destruct b, c; reflexivity.
Qed.
(** One tree of the joined columns: the host's column (now number 1) at the root, the guest's below, and the weights of ex_run. *)
Example C63_run : exists st, local_fit (jx_cfg 3 1 ex_gbins ex_hbins) IGain ex_gh (@Ok _) = Ok st /\
  map shape (t_nodes st) = map (fun s => let '(a, b, f, l, w, x, y) := s in (a, GuestSite, match b with HostSite _ => Some 1 | _ => f end, l, w, x, y)) ex_nodes /\
  option_map (fun w => map (fun kv => (kv.1, this kv.2)) (dt_data w)) (t_weights st) = Some [(0, (-10 # 11)%Q); (1, (-5 # 11)%Q); (2, (10 # 11)%Q); (3, (5 # 11)%Q)].
Proof. eexists. split; [vm_compute; reflexivity|]. split; vm_compute; reflexivity. Qed.
Example C63_boost_run : exists st F, local_train (fun x => x) bex_pred bex_loss (bex_par 2 true) (jx_cfg 3 1 ex_gbins ex_hbins) ISplit Sigmoid 1 bex_y (fun _ _ => bex_draw) (fun _ => @Ok _) = Ok st /\
  length (bs_trees st) = 2 /\ length (bs_hist st) = 2 /\ map (fun kv => (kv.1, this kv.2)) (bs_imp st) = [((GuestSite, Some 1), 2%Q)] /\
  local_score (fun x => x) (Q2Qc (1 # 2)) 1 (bs_trees st) (jx_raw ex_gbins ex_hbins) = Ok F /\ map (fun kv => (kv.1, map this kv.2)) (dt_data F) = map (fun kv => (kv.1, map this kv.2)) (dt_data (bs_F st)) /\
  bended (run 3000 (bex_sys (bex_par 2 true) (bex_par 2 true))).2 = Some (map (fun kv => (kv.1, map this kv.2)) (dt_data (bs_F st)), 2, [((HostSite 0, Some 0), 2%Q)], map this (bs_hist st), [Some (1, 2)]).
Proof. eexists _, _. split; [vm_compute; reflexivity|]. split; [reflexivity|]. split; [reflexivity|]. split; [reflexivity|]. split; [vm_compute; reflexivity|]. split; vm_compute; reflexivity. Qed.
(** Two leaves below a node of the host. *)
Definition fx_nodes : list node := [Node 0 (HostSite 0) (Some 0) (zq 0) false (zq 0) (zq 0) (Some 1) (Some 2); Node 1 GuestSite None (zq 1) true (zq 0) (zq 0) None None; Node 2 GuestSite None (zq 2) true (zq 0) (zq 0) None None].
Example C63_foreign_ex : exists t l r, prepr 1 ex_name fx_nodes [] (fun _ => [(0, MReal (zq 1))]) 0 t /\ gdown (jrow (ex_raw ex_gbins) (fun _ => ex_raw ex_hbins) 0) t = PN (Some 0) 0 (zq 1) l r /\
  local_predict fx_nodes [] (ex_raw ex_gbins) = Err AttributeError.
Proof.
  exists (PN (Some 0) 0 (mnum (MReal (zq 1))) (PL (zq 1)) (PL (zq 2))), (PL (zq 1)), (PL (zq 2)). split; [|split; reflexivity].
  eapply (prepr_node 1 ex_name fx_nodes [] (fun _ => [(0, MReal (zq 1))]) 0 _ (Some 0) 0 (MReal (zq 1))); try reflexivity; [split; [lia|split; reflexivity]|lia|lia|..]; [apply (prepr_leaf 1 ex_name fx_nodes [] _ 1 (Node 1 GuestSite None (zq 1) true (zq 0) (zq 0) None None))|apply (prepr_leaf 1 ex_name fx_nodes [] _ 2 (Node 2 GuestSite None (zq 2) true (zq 0) (zq 0) None None))]; reflexivity.
Qed.

(** A check that implies [clear_cut]. *)
Fixpoint clear_check {K} (U : list K) lam mi guest hosts vg vh (d : nat) (t : dtree) (S : K -> bool) : bool :=
  match d with
  | 0 => true
  | Datatypes.S d' =>
      forallb (fun m => forallb (fun x => negb (qltb mi m) || qleb x m || qltb (m + FLOAT_ZERO)%Qc x) (concat (map (fun p => JoinSpec.gains_of U lam vg vh p S) hosts))) (JoinSpec.gains_of U lam vg vh guest S) &&
      match t with
      | TLeaf _ _ _ => true
      | TSplit _ _ _ c _ l r => match owner guest hosts (ch_own c) with
          | Some p => clear_check U lam mi guest hosts vg vh d' l (left_of p S (ch_fid c) (ch_bin c)) && clear_check U lam mi guest hosts vg vh d' r (right_of p S (ch_fid c) (ch_bin c))
          | None => true
          end
      end
  end.
Lemma clear_checked {K} (U : list K) lam mi guest hosts vg vh d : forall t S, clear_check U lam mi guest hosts vg vh d t S = true -> clear_cut U lam mi guest hosts vg vh d t S.
Proof.
  induction d as [|d IH]; intros t S E; [exact Logic.I|]. cbn [clear_check clear_cut] in *. apply andb_prop in E as [E1 E2]. split.
  - intros m x [Hm _] [Hx _] Gm Gx. rewrite forallb_forall in E1. specialize (E1 m (proj1 (elem_of_list_In _ _) Hm)). rewrite forallb_forall in E1. specialize (E1 x (proj1 (elem_of_list_In _ _) Hx)).
    apply orb_prop in E1 as [E1|E1]; [apply orb_prop in E1 as [E1|E1]|].
    + apply negb_true_iff in E1. rewrite (proj2 (qltb_true _ _) Gm) in E1. discriminate.
    + apply qleb_true in E1. exfalso. exact (Qclt_not_le _ _ Gx E1).
    + now apply qltb_true in E1.
  - destruct t as [|w G H c g l r]; [exact Logic.I|]. intros p Hp. rewrite Hp in E2. apply andb_prop in E2 as [El Er]. auto.
Qed.
Definition ok_tree (r : res dtree) : dtree := match r with Ok t => t | Err _ => TLeaf (zq 0) (zq 0) (zq 0) end.
Definition ex_tree : dtree := ok_tree (learn (seq 0 4) (Q2Qc (1 # 10)) (zq 0) (ex_party ex_gbins) [ex_party ex_hbins] ex_vg ex_vh ex_vg ex_vh (fun x => x) Ok 2).
Example C64_ex : learn (seq 0 4) (Q2Qc (1 # 10)) (zq 0) (ex_party ex_gbins) [ex_party ex_hbins] ex_vg ex_vh ex_vg ex_vh (fun x => x) Ok 2 = Ok ex_tree /\
  clear_cut (seq 0 4) (Q2Qc (1 # 10)) (zq 0) (ex_party ex_gbins) [ex_party ex_hbins] ex_vg ex_vh 2 ex_tree (fun _ => true).
Proof. split; [vm_compute; reflexivity|]. apply clear_checked. vm_compute. reflexivity. Qed.
(** The trees of the boosting example. *)
Definition bex_lab (k : nat) : nat := if k <? 2 then 0 else 1.
Definition bex_v (T : list dtree) (r k : nat) : Qc * Qc :=
  (grad_at (fun x => x) bex_pred (bex_par 2 true) Sigmoid 1 bex_lab (ex_party ex_gbins) [ex_party ex_hbins] T r 0 k, hess_at (fun x => x) bex_pred (bex_par 2 true) Sigmoid 1 (ex_party ex_gbins) [ex_party ex_hbins] T r 0 k).
Definition bex_grow (T : list dtree) (r : nat) : res dtree :=
  learn (seq 0 4) (Q2Qc (1 # 10)) (zq 0) (ex_party ex_gbins) [ex_party ex_hbins] (fun k => (bex_v T r k).1) (fun k => (bex_v T r k).2) (fun k => (bex_v T r k).1) (fun k => (bex_v T r k).2) (fun x => x) Ok 2.
Definition bex_t0 : dtree := Eval vm_compute in ok_tree (bex_grow [] 0).
Definition bex_t1 : dtree := Eval vm_compute in ok_tree (bex_grow [bex_t0] 1).
Example C64_boost_ex : boosted (seq 0 4) (ex_party ex_gbins) [ex_party ex_hbins] bex_lab Sigmoid 1 (fun x => x) (b_lr (bex_par 2 true)) bex_pred
    (fun j vg vh t => learn (seq 0 4) (Q2Qc (1 # 10)) (zq 0) (with_valid (ex_party ex_gbins) (gvalid ex_guest (bex_par 2 true) (fun _ _ => bex_draw) j))
      (hosts_with [ex_party ex_hbins] (hvalid ex_host (bex_par 2 true) (fun _ _ _ => bex_draw) j)) vg vh vg vh (fun x => x) Ok 2 = Ok t) [bex_t0; bex_t1] /\
  clear_model (fun x => x) bex_pred (seq 0 4) (ex_party ex_gbins) [ex_party ex_hbins] (bex_par 2 true) Sigmoid 1 bex_lab (Q2Qc (1 # 10)) (zq 0) 2
    (gvalid ex_guest (bex_par 2 true) (fun _ _ => bex_draw)) (hvalid ex_host (bex_par 2 true) (fun _ _ _ => bex_draw)) [bex_t0; bex_t1].
Proof.
  split.
  - intros r c t Hc Ht. replace c with 0 in * by lia. rewrite Nat.mul_1_r, Nat.add_0_r in Ht. exists (fun k => (bex_v [bex_t0; bex_t1] r k).1), (fun k => (bex_v [bex_t0; bex_t1] r k).2). split; [|intros k _; split; reflexivity].
    destruct r as [|[|r]]; [injection Ht as <-; vm_compute; reflexivity..|discriminate].
  - intros r c t Hc Ht. replace c with 0 in * by lia. rewrite Nat.mul_1_r, Nat.add_0_r in Ht. apply clear_checked. destruct r as [|[|r]]; [injection Ht as <-; vm_compute; reflexivity..|discriminate].
Qed.

(** Near ties: the guest's best gain is 10^-7 below the host's. The federation splits on the guest's column, the program with both
    columns on the host's, and some row gets another weight. *)
Definition tie_gb : list nat := [0; 1; 1; 1].
Definition tie_hb : list nat := [1; 0; 1; 1].
Definition tie_vg (k : nat) : Qc := nth k [zq 1; (zq 1 + FLOAT_ZERO * Q2Qc (1 # 10))%Qc; zq (-1); zq (-1)] (zq 0).
Definition tie_gh : dtable nat (Qc * Qc) := DT (map (fun k => (k, (tie_vg k, ex_vh k))) (seq 0 4)).
Definition tie_sys := plain_sys 1 (ex_cfg 2 1 tie_gb) (fun _ => ex_cfg 2 1 tie_hb) ex_name IGain tie_gh.
Lemma tie_ok : parties_ok (seq 0 4) 1 (ex_cfg 2 1 tie_gb) (fun _ => ex_cfg 2 1 tie_hb) (ex_party tie_gb) [ex_party tie_hb] ex_name tie_gh tie_vg ex_vh.
Proof.
  assert (H : forall i p, [ex_party tie_hb] !! i = Some p -> p = ex_party tie_hb).
  { intros [|i] p E; cbn in E; [now injection E as <-|discriminate]. }
  split.
  - split; [apply NoDup_ListNoDup, seq_NoDup|discriminate].
  - split; [reflexivity|lia].
  - apply ex_party_ok; [reflexivity|repeat constructor].
  - intros i p E. rewrite (H i p E). apply ex_party_ok; [reflexivity|repeat constructor].
  - split; [cbn; lia|]. intros i p E. rewrite (H i p E). cbn. lia.
  - intros i _. discriminate.
  - intros i j _ _ E. unfold ex_name in E. injection E. lia.
  - split; [discriminate|]. reflexivity.
  - reflexivity.
  - cbn. lia.
  - split; [exact (proj2 (NoDup_ListNoDup _) (seq_NoDup 4 0))|]. split; [reflexivity|]. intros k c Hc. cbn in Hc. repeat rewrite elem_of_cons in Hc.
    destruct Hc as [[= -> ->]|[[= -> ->]|[[= -> ->]|[[= -> ->]|Hc]]]]; [reflexivity..|]. now apply elem_of_nil in Hc.
Qed.
Definition tie_gend (s : sys (msg nat Qc Qc) (@gstate nat) (list node * dict nat mval)) : @gstate nat := match s_guest s with Ret st => st | _ => GState [] [] 0 None [] end.
Definition tie_hend (s : sys (msg nat Qc Qc) (@gstate nat) (list node * dict nat mval)) : list (list node * dict nat mval) := flat_map (fun h => match h.1.1 with Ret r => [r] | _ => [] end) (s_hosts s).
Definition first_row (st : @gstate nat) : Qc := match t_weights st with Some w => nth 0 (map snd (dt_data w)) (zq 0) | None => zq 0 end.
Theorem C64_near_tie_refuted : exists (gcfg hcfg jcfg : pcfg nat) guest host gh vg vh m st hs jst w w' v v',
  parties_ok (seq 0 4) 1 gcfg (fun _ => hcfg) guest [host] ex_name gh vg vh /\ alone_ok (seq 0 4) jcfg (join_parties guest [host]) gh vg vh /\ same_parameters gcfg guest [host] jcfg /\
  nsteps step m (plain_sys 1 gcfg (fun _ => hcfg) ex_name IGain gh) (done st hs) /\ local_fit jcfg IGain gh (@Ok _) = Ok jst /\
  t_weights st = Some w /\ t_weights jst = Some w' /\ (0, v) ∈ dt_data w /\ (0, v') ∈ dt_data w' /\ v <> v'.
Proof.
  pose proof (run_ok 1000 tie_sys) as R. assert (E : (run 1000 tie_sys).2 = done (tie_gend (run 1000 tie_sys).2) (tie_hend (run 1000 tie_sys).2)) by (vm_compute; reflexivity). rewrite E in R.
  destruct (local_fit (jx_cfg 2 1 tie_gb tie_hb) IGain tie_gh (@Ok _)) as [jst|e] eqn:EJ; [|vm_compute in EJ; discriminate EJ].
  set (st := tie_gend (run 1000 tie_sys).2) in *. destruct (t_weights st) as [w|] eqn:Ew; [|vm_compute in Ew; discriminate Ew]. destruct (t_weights jst) as [w'|] eqn:Ew'; [|vm_compute in EJ; injection EJ as <-; discriminate Ew'].
  exists (ex_cfg 2 1 tie_gb), (ex_cfg 2 1 tie_hb), (jx_cfg 2 1 tie_gb tie_hb), (ex_party tie_gb), (ex_party tie_hb), tie_gh, tie_vg, ex_vh, (run 1000 tie_sys).1, st, (tie_hend (run 1000 tie_sys).2), jst, w, w', (first_row st), (first_row jst).
  split; [exact tie_ok|]. split; [apply jx_alone; try reflexivity; [repeat constructor..|discriminate|exact (pa_gh _ _ _ _ _ _ _ _ _ _ tie_ok)]|]. split; [split; [reflexivity|split; [reflexivity|split; [reflexivity|repeat constructor]]]|].
  split; [exact R|]. split; [exact EJ|]. split; [exact Ew|]. split; [exact Ew'|]. unfold first_row. rewrite Ew, Ew'. vm_compute in EJ. injection EJ as <-. cbn [t_weights] in Ew'. injection Ew' as <-. vm_compute in Ew. injection Ew as <-.
  split; [left|]. split; [left|]. intros X. apply (f_equal this) in X. vm_compute in X. discriminate X.
Qed.
Print Assumptions C64_near_tie_refuted.
(** The loss of the example does not depend on the order of the rows. *)
Example C64_loss_ex kind y a b : NoDup (dt_keys a) -> NoDup (dt_keys b) -> (forall k v, (k, v) ∈ dt_data a <-> (k, v) ∈ dt_data b) -> bex_loss kind y a = bex_loss kind y b.
Proof.
  intros Wa Wb AB. unfold bex_loss. f_equal. apply map_ext. intros [k n]. cbn [fst snd].
  replace (dict_get k (dt_data b)) with (dict_get k (dt_data a)); [reflexivity|]. change (tget a k = tget b k).
  apply option_eq. intros v. rewrite !tget_elem by assumption. apply AB.
Qed.
