(** Boosting on the joined columns. *)
From Verif Require Export JoinProofs LocalMain.
Local Open Scope nat_scope.

(** ** The learner depends on the bins and on the gradients of the rows only *)
Definition alike_party {K} (p q : party K) : Prop :=
  (forall k f, p_bin p k f = p_bin q k f) /\ p_nb p = p_nb q /\ p_valid p = p_valid q /\ p_min_sample p = p_min_sample q /\ p_min_leaf p = p_min_leaf q.
Lemma mapR_pointwise {A B} (f g : A -> res B) l : (forall a, a ∈ l -> f a = g a) -> mapR f l = mapR g l.
Proof. induction l as [|a l IH]; intros E; [reflexivity|]. cbn [mapR]. rewrite E by constructor. rewrite IH by (intros; apply E; now constructor). reflexivity. Qed.
Lemma sum_if_both {A} (P Q : A -> bool) f g l : (forall x, x ∈ l -> P x = Q x) -> (forall x, x ∈ l -> f x = g x) -> sum_if P f l = sum_if Q g l.
Proof.
  intros E F. rewrite (sum_if_ext P Q) by exact E. induction l as [|x l IH]; [reflexivity|]. rewrite !sum_if_cons, F by constructor. rewrite IH; [reflexivity|intros; apply E; now constructor|intros; apply F; now constructor].
Qed.

Section Ext.
  Context {K : Type} (U : list K) (lam mi : Qc).
  Lemma alike_cands p q S S' : alike_party p q -> (forall k, k ∈ U -> S k = S' k) -> cands U p S = cands U q S'.
  Proof.
    intros (EB & EN & EV & EM & EL) ES. unfold cands. rewrite EM, EN, EV, (count_if_ext S S') by exact ES. destruct (_ <? _)%Z; [reflexivity|]. rewrite !flat_map_concat_map. f_equal. apply map_ext. intros [f n]. cbn [fst snd].
    destruct (p_valid q !! f) as [[]|]; [|reflexivity..]. f_equal. apply filter_ext. intros b. now apply allowed_ext.
  Qed.

  Context (guest guest' : party K) (hosts hosts' : list (party K)) (vg vh vg' vh' : K -> Qc).
  Context (PG : alike_party guest guest') (PH : Forall2 alike_party hosts hosts') (EG : forall k, k ∈ U -> vg k = vg' k) (EH : forall k, k ∈ U -> vh k = vh' k).

  Lemma propose_ext own p q S S' G H : alike_party p q -> (forall k, k ∈ U -> S k = S' k) ->
    propose U lam mi own p S G H (fun L => sum_if L vg U) (fun L => sum_if L vh U) = propose U lam mi own q S' G H (fun L => sum_if L vg' U) (fun L => sum_if L vh' U).
  Proof.
    intros PP ES. unfold propose. cbv zeta. rewrite (alike_cands p q S S' PP ES). cbn [ch_g ch_h].
    assert (X : forall f b k, k ∈ U -> left_of p S f b k = left_of q S' f b k) by (intros f b k Hk; unfold left_of; rewrite ES by exact Hk; destruct PP as (EB & _); now rewrite EB).
    rewrite (mapR_pointwise _ (fun fb => x ← sgain lam G H (sum_if (left_of q S' fb.1 fb.2) vg' U) (sum_if (left_of q S' fb.1 fb.2) vh' U);
      Ok (Choice own fb.1 fb.2 (sum_if (left_of q S' fb.1 fb.2) vg' U) (sum_if (left_of q S' fb.1 fb.2) vh' U), x))); [reflexivity|].
    intros [f b] _. cbn [fst snd]. rewrite (sum_if_both (left_of p S f b) (left_of q S' f b) vg vg'), (sum_if_both (left_of p S f b) (left_of q S' f b) vh vh'); auto.
  Qed.

  Lemma best_ext S S' G H : (forall k, k ∈ U -> S k = S' k) ->
    best_split U lam mi guest hosts vg vh vg vh (fun x => x) Ok S G H = best_split U lam mi guest' hosts' vg' vh' vg' vh' (fun x => x) Ok S' G H.
  Proof.
    intros ES. unfold best_split, guest_best. rewrite (sum_if_both S S' vg vg'), (sum_if_both S S' vh vh') by assumption. rewrite (propose_ext None guest guest' S S') by assumption.
    assert (X : forall i, mapR (host_best U lam mi vg vh (fun x => x) Ok S G H) (combine (seq i (length hosts)) hosts) = mapR (host_best U lam mi vg' vh' (fun x => x) Ok S' G H) (combine (seq i (length hosts')) hosts')).
    { clear PG. induction PH as [|p q l l' PP F IH]; intros i; [reflexivity|]. cbn [length seq combine mapR]. rewrite (IH F). unfold host_best at 1 3. cbn [fst snd]. rewrite (propose_ext (Some i) p q S S') by assumption. reflexivity. }
    rewrite X. reflexivity.
  Qed.

  Lemma owner_ext own : match owner guest hosts own, owner guest' hosts' own with Some p, Some q => alike_party p q | None, None => True | _, _ => False end.
  Proof.
    destruct own as [i|]; cbn [owner]; [|exact PG]. destruct (hosts !! i) as [p|] eqn:E.
    - destruct (Forall2_lookup_l _ _ _ _ _ PH E) as (q & -> & Q). exact Q.
    - destruct (hosts' !! i) as [q|] eqn:E'; [|exact I]. destruct (Forall2_lookup_r _ _ _ _ _ PH E') as (p & E'' & _). congruence.
  Qed.

  Lemma grow_ext d : forall S S' G H, (forall k, k ∈ U -> S k = S' k) ->
    grow U lam mi guest hosts vg vh vg vh (fun x => x) Ok d S G H = grow U lam mi guest' hosts' vg' vh' vg' vh' (fun x => x) Ok d S' G H.
  Proof.
    induction d as [|d IH]; intros S S' G H ES; cbn [grow]; rewrite (best_ext S S' G H ES); [reflexivity|]. destruct (sweight lam G H) as [w|]; [|reflexivity]. cbn [mbind res_bind].
    destruct (best_split U lam mi guest' hosts' vg' vh' vg' vh' _ _ S' G H) as [[[c x]|]|]; [|reflexivity..]. cbn [mbind res_bind]. destruct (qleb _ _); [reflexivity|].
    pose proof (owner_ext (ch_own c)) as OW.
    rewrite (IH (goes guest hosts left_of S c) (goes guest' hosts' left_of S' c)), (IH (goes guest hosts right_of S c) (goes guest' hosts' right_of S' c)); [reflexivity| |];
      intros k Hk; unfold goes; destruct (owner guest hosts (ch_own c)), (owner guest' hosts' (ch_own c)); try contradiction; try reflexivity; unfold left_of, right_of; destruct OW as (EB & _); now rewrite EB, ES.
  Qed.

  Lemma learn_ext d : learn U lam mi guest hosts vg vh vg vh (fun x => x) Ok d = learn U lam mi guest' hosts' vg' vh' vg' vh' (fun x => x) Ok d.
  Proof. unfold learn. rewrite (sum_if_both (fun _ => true) (fun _ => true) vg vg'), (sum_if_both (fun _ => true) (fun _ => true) vh vh') by auto. now apply grow_ext. Qed.
End Ext.

Lemma alike_refl {K} (p : party K) : alike_party p p.
Proof. repeat split. Qed.
Lemma alike_all {K} (l : list (party K)) : Forall2 alike_party l l.
Proof. induction l; constructor; auto using alike_refl. Qed.

Section Agree.
  Context {K : Type} (rnd : Qc -> Qc) (pred : loss_kind -> list Qc -> list Qc) (lossf : loss_kind -> dtable K nat -> dtable K (list Qc) -> Qc).
  Context `{EqDecision K} (U : list K) (guest : party K) (hosts : list (party K)) (P : bparams) (kind : loss_kind) (dim : nat) (y : dtable K nat) (lab : K -> nat) (lam mi : Qc) (d : nat).
  Context (gv : nat -> list bool) (hv : nat -> nat -> list bool) (jv : nat -> list bool).
  Local Notation lr := (b_lr P).
  Local Notation ps := (guest :: hosts).
  Local Notation J := (join_parties guest hosts).
  Local Notation guestj j := (with_valid guest (gv j)).
  Local Notation hostsj j := (hosts_with hosts (hv j)).
  Context (Hdim : 0 < dim) (L0 : (0 < lam)%Qc) (Hrnd : rnd_ok rnd) (Hpred : forall f, length f = dim -> length (pred kind f) = dim /\ forall x, x ∈ pred kind f -> (0 <= x)%Qc /\ (x <= 1)%Qc).
  Context (Hlab : forall k, k ∈ U -> match kind with Sigmoid => dim = 1 /\ lab k <= 1 | Softmax => lab k < dim end).
  Context (LIM : Forall (fun p => p_min_sample p = p_min_sample guest /\ p_min_leaf p = p_min_leaf guest) hosts).
  Context (LG : forall j, length (gv j) = length (p_nb guest)) (LH : forall j i p, hosts !! i = Some p -> length (hv j i) = length (p_nb p)).
  Context (JV : forall j, jv j = concat (map p_valid (guestj j :: hostsj j))).

  (** The gradients that tree (r, c) is learnt from. *)
  Definition grad_at (g : party K) (h : list (party K)) (T : list dtree) (r c : nat) (k : K) : Qc := gradient rnd kind (lab k) (pred kind (scores rnd lr dim (wt g h T) r k)) c.
  Definition hess_at (g : party K) (h : list (party K)) (T : list dtree) (r c : nat) (k : K) : Qc := hessian rnd (pred kind (scores rnd lr dim (wt g h T) r k)) c.
  (** No tree of the model has a near-tie. *)
  Definition clear_model (T : list dtree) : Prop := forall r c t, c < dim -> T !! (r * dim + c) = Some t ->
    clear_cut U lam mi (guestj (r * dim + c)) (hostsj (r * dim + c)) (grad_at guest hosts T r c) (hess_at guest hosts T r c) d t (fun _ => true).

  Lemma hosts_nb j : map p_nb (hostsj j) = map p_nb hosts.
  Proof. unfold hosts_with. apply list_eq. intros i. rewrite !map_lookup, list_lookup_imap. now destruct (hosts !! i). Qed.
  Lemma column_with j k f : bin_at (guestj j :: hostsj j) k f = bin_at ps k f.
  Proof.
    unfold hosts_with. cbn [bin_at with_valid p_nb p_bin]. destruct (_ <? _); [reflexivity|]. generalize (f - length (p_nb guest)) as f'. generalize (hv j) as v. clear.
    induction hosts as [|p l IH]; intros v f; [reflexivity|]. cbn [imap bin_at with_valid p_nb p_bin]. destruct (_ <? _); [reflexivity|]. exact (IH (v ∘ Datatypes.S) _).
  Qed.
  Lemma offset_with j i : offset (guestj j :: hostsj j) i = offset ps i.
  Proof.
    destruct i as [|i]; [reflexivity|]. unfold hosts_with. cbn [offset with_valid p_nb]. f_equal. generalize (hv j) as v. clear. revert i.
    induction hosts as [|p l IH]; intros i v; [reflexivity|]. destruct i as [|i]; [reflexivity|]. cbn [imap offset with_valid p_nb]. f_equal. exact (IH i (v ∘ Datatypes.S)).
  Qed.
  Lemma moved_with j t : moved_tree (guestj j :: hostsj j) t = moved_tree ps t.
  Proof. induction t as [|w G H c x l IHl r IHr]; [reflexivity|]. cbn [moved_tree]. rewrite IHl, IHr. unfold moved_choice. now rewrite offset_with. Qed.
  Lemma joined_with j : alike_party (join_parties (guestj j) (hostsj j)) (with_valid J (jv j)).
  Proof.
    split; [intros k f; exact (column_with j k f)|]. cbn [join_parties with_valid p_nb p_valid p_min_sample p_min_leaf map]. rewrite hosts_nb. split; [reflexivity|]. split; [now rewrite JV|]. split; reflexivity.
  Qed.
  Lemma route_alike (p q : party K) t k : alike_party p q -> route p [] t k = route q [] t k.
  Proof.
    intros (EB & _). induction t as [|w G H c x l IHl r IHr]; [reflexivity|]. cbn [route]. rewrite IHl, IHr.
    assert (X : goes p [] left_of (fun _ => true) c k = goes q [] left_of (fun _ => true) c k); [|now rewrite X]. unfold goes. destruct (ch_own c) as [i|]; cbn [owner]; [reflexivity|]. unfold left_of. now rewrite EB.
  Qed.

  Lemma limits_with j : Forall (fun p => p_min_sample p = p_min_sample (guestj j) /\ p_min_leaf p = p_min_leaf (guestj j)) (hostsj j) /\ Forall (fun p => length (p_valid p) = length (p_nb p)) (guestj j :: hostsj j).
  Proof.
    assert (IM : forall i p, hostsj j !! i = Some p -> exists q, hosts !! i = Some q /\ p = with_valid q (hv j i)).
    { intros i p Hp. unfold hosts_with in Hp. rewrite list_lookup_imap in Hp. destruct (hosts !! i) as [q|]; [|discriminate]. injection Hp as <-. eauto. }
    split; [|constructor; [apply LG|]]; apply Forall_lookup; intros i p Hp; destruct (IM i p Hp) as (q & Hq & ->); cbn [with_valid p_min_sample p_min_leaf p_valid p_nb].
    - exact (proj1 (Forall_lookup _ _) LIM i q Hq).
    - now apply LH.
  Qed.

  Context (T T' : list dtree).
  Context (B : boosted U guest hosts lab kind dim rnd lr pred (fun j vg vh t => learn U lam mi (guestj j) (hostsj j) vg vh vg vh (fun x => x) Ok d = Ok t) T).
  Context (B' : boosted U J [] lab kind dim rnd lr pred (fun j vg vh t => learn U lam mi (with_valid J (jv j)) [] vg vh vg vh (fun x => x) Ok d = Ok t) T').
  Context (CL : clear_model T).

  Lemma split_index j : exists r c, c < dim /\ j = r * dim + c.
  Proof. exists (j / dim), (j mod dim). split; [apply Nat.mod_upper_bound; lia|]. pose proof (Nat.div_mod j dim). lia. Qed.

  Lemma wt_agree j t t' : T !! j = Some t -> T' !! j = Some t' -> t' = moved_tree ps t -> forall k, wt J [] T' j k = wt guest hosts T j k.
  Proof.
    intros Ht Ht' E k. unfold wt. rewrite Ht, Ht', E. destruct (split_index j) as (r & c & Hc & Ej). rewrite Ej in Ht. destruct (B r c t Hc Ht) as (vg & vh & Et & _). rewrite <- Ej in Et.
    pose proof (route_moved U lam mi (guestj j) (hostsj j) vg vh d _ _ _ t Et k) as R. rewrite moved_with in R.
    rewrite (route_alike _ _ (moved_tree ps t) k (joined_with j)) in R. rewrite <- (route_with guest hosts (gv j) (hv j) t k), <- R.
    exact (eq_sym (route_with J [] (jv j) (fun _ => []) (moved_tree ps t) k)).
  Qed.

  Lemma trees_agree : forall j t t', T !! j = Some t -> T' !! j = Some t' -> t' = moved_tree ps t.
  Proof.
    induction j as [j IH] using lt_wf_ind. intros t t' Ht Ht'. destruct (split_index j) as (r & c & Hc & Ej).
    assert (WT : forall j', j' < r * dim -> forall k, wt J [] T' j' k = wt guest hosts T j' k).
    { intros j' Hj' k. assert (X : j' < length T) by (apply lookup_lt_Some in Ht; lia). assert (X' : j' < length T') by (apply lookup_lt_Some in Ht'; lia).
      destruct (lookup_lt_is_Some_2 _ _ X) as [u Hu]. destruct (lookup_lt_is_Some_2 _ _ X') as [u' Hu']. apply (wt_agree j' u u' Hu Hu'). apply (IH j'); [lia|exact Hu|exact Hu']. }
    rewrite Ej in Ht, Ht'. destruct (B r c t Hc Ht) as (vg & vh & Et & V). destruct (B' r c t' Hc Ht') as (vg' & vh' & Et' & V'). pose proof (CL r c t Hc Ht) as C. rewrite <- Ej in *.
    rewrite (learn_ext U lam mi (guestj j) (guestj j) (hostsj j) (hostsj j) vg vh (grad_at guest hosts T r c) (hess_at guest hosts T r c) (alike_refl _) (alike_all _)) in Et; [|intros k Hk; now apply V|intros k Hk; now apply V].
    destruct (limits_with j) as [LI LV].
    assert (H0 : forall k, k ∈ U -> (0 <= hess_at guest hosts T r c k)%Qc).
    { intros k Hk. unfold hess_at. destruct (Hpred (scores rnd lr dim (wt guest hosts T) r k)) as [_ Bp]; [unfold scores; now rewrite map_length, seq_length|].
      apply (gradient_bound rnd kind (lab k) (pred kind (scores rnd lr dim (wt guest hosts T) r k)) c); [exact Hrnd|exact Bp|]. pose proof (Hlab k Hk) as HL. destruct kind; [apply HL|exact I]. }
    pose proof (learn_joined U lam mi (guestj j) (hostsj j) (grad_at guest hosts T r c) (hess_at guest hosts T r c) L0 H0 LI LV d t Et C) as LJ.
    rewrite moved_with in LJ.
    rewrite (learn_ext U lam mi (join_parties (guestj j) (hostsj j)) (with_valid J (jv j)) [] [] _ _ vg' vh' (joined_with j) (alike_all _)) in LJ; [congruence| |].
    - intros k Hk. destruct (V' k Hk) as [-> _]. unfold grad_at. rewrite (scores_ext rnd lr dim (wt J [] T') (wt guest hosts T)); [reflexivity|]. intros j' Hj'. now apply WT.
    - intros k Hk. destruct (V' k Hk) as [_ ->]. unfold hess_at. rewrite (scores_ext rnd lr dim (wt J [] T') (wt guest hosts T)); [reflexivity|]. intros j' Hj'. now apply WT.
  Qed.

  (** ** The number of rounds *)
  Context (hist hist' : list Qc) (LT : length T = length hist * dim) (LT' : length T' = length hist' * dim).
  Context (ST : stops rnd (b_early P) (b_tol P) (b_rounds P) hist) (ST' : stops rnd (b_early P) (b_tol P) (b_rounds P) hist').
  Lemma scores_agree r k : r * dim <= length T -> r * dim <= length T' -> scores rnd lr dim (wt J [] T') r k = scores rnd lr dim (wt guest hosts T) r k.
  Proof.
    intros L1 L2. apply scores_ext. intros j Hj. destruct (lookup_lt_is_Some_2 T j ltac:(lia)) as [u Hu]. destruct (lookup_lt_is_Some_2 T' j ltac:(lia)) as [u' Hu'].
    apply (wt_agree j u u' Hu Hu'). exact (trees_agree j u u' Hu Hu').
  Qed.

  Lemma rounds_agree_of (HA : b_early P = true -> forall q x x', hist !! q = Some x -> hist' !! q = Some x' -> x = x') : length hist = length hist'.
  Proof.
    pose proof ST as [R1 S1]. pose proof ST' as [R2 S2]. destruct (b_early P); [|congruence]. specialize (HA eq_refl).
    destruct S1 as [N1 M1], S2 as [N2 M2]. destruct (lt_eq_lt_dec (length hist) (length hist')) as [[L|L]|L]; [|exact L|]; exfalso.
    - destruct (M1 ltac:(lia)) as (r & Lr & a & b & Ha & Hb & C). apply (N2 r); [lia|]. destruct (lookup_lt_is_Some_2 hist' r ltac:(lia)) as [a' Ha']. destruct (lookup_lt_is_Some_2 hist' (Datatypes.S r) ltac:(lia)) as [b' Hb'].
      exists a', b'. split; [exact Ha'|]. split; [exact Hb'|]. rewrite <- (HA _ _ _ Ha Ha'), <- (HA _ _ _ Hb Hb'). exact C.
    - destruct (M2 ltac:(lia)) as (r & Lr & a & b & Ha & Hb & C). apply (N1 r); [lia|]. destruct (lookup_lt_is_Some_2 hist r ltac:(lia)) as [a' Ha']. destruct (lookup_lt_is_Some_2 hist (Datatypes.S r) ltac:(lia)) as [b' Hb'].
      exists a', b'. split; [exact Ha'|]. split; [exact Hb'|]. rewrite (HA _ _ _ Ha' Ha), (HA _ _ _ Hb' Hb). exact C.
  Qed.

  Lemma models_agree_of (HA : b_early P = true -> forall q x x', hist !! q = Some x -> hist' !! q = Some x' -> x = x') : T' = map (moved_tree ps) T /\ forall k, scores rnd lr dim (wt J [] T') (length hist') k = scores rnd lr dim (wt guest hosts T) (length hist) k.
  Proof.
    pose proof (rounds_agree_of HA) as R. split.
    - apply list_eq. intros j. rewrite map_lookup. destruct (T !! j) as [t|] eqn:E.
      + destruct (lookup_lt_is_Some_2 T' j) as [t' E']; [apply lookup_lt_Some in E; lia|]. rewrite E'. cbn. f_equal. exact (trees_agree j t t' E E').
      + apply lookup_ge_None_2. apply lookup_ge_None_1 in E. lia.
    - intros k. rewrite <- R. apply scores_agree; lia.
  Qed.

  Context (LO : losses rnd pred lossf U guest hosts P kind dim y T hist) (LO' : losses rnd pred lossf U J [] P kind dim y T' hist').
  (** The loss depends on the predictions, not on the order of the rows in the table. *)
  Context (LX : b_early P = true -> forall a b : dtable K (list Qc), dt_wf a -> dt_wf b -> (forall k v, tget a k = Some v <-> tget b k = Some v) -> lossf kind y a = lossf kind y b).

  Lemma hist_agree : b_early P = true -> forall q x x', hist !! q = Some x -> hist' !! q = Some x' -> x = x'.
  Proof.
    intros EE q x x' Hx Hx'. destruct (LO q x Hx) as (yp & -> & W & G). destruct (LO' q x' Hx') as (yp' & -> & W' & G'). apply (LX EE); auto. intros k v. rewrite G, G', scores_agree; [reflexivity| |].
    - apply lookup_lt_Some in Hx. rewrite LT. nia.
    - apply lookup_lt_Some in Hx'. rewrite LT'. nia.
  Qed.

  Lemma models_agree : T' = map (moved_tree ps) T /\ forall k, scores rnd lr dim (wt J [] T') (length hist') k = scores rnd lr dim (wt guest hosts T) (length hist) k.
  Proof. exact (models_agree_of hist_agree). Qed.
End Agree.
