(** A tree grown in doubles is the exact one if every choice is clear. *)
From Verif Require Export FloatTreeMain JoinMain.
From Verif Require Import FloatSplitProofs.
Local Open Scope nat_scope.

Section Same.
  Context {K : Type} `{EqDecision K} (U : list K) (me : party K) (vg vh : K -> Qc) (lam mi least E W D : Qc) (bottom : nat) (points : list (list Qc)).
  Context (T : list node) (mask : dict nat mval) (rows : list (K -> bool)) (levels : list nat).
  Context (NT : near_tree U me vg vh lam least E W D bottom points T mask rows levels).
  Local Notation grow := (grow U lam mi me [] vg vh vg vh (fun x => x) Ok).
  Local Notation clear := (clear U me vg vh lam least D).
  Local Notation same_tree := (same_tree E W points T mask).
  Local Notation gain := (rows_gain U me vg vh lam).

  Lemma left_ext S S' f b : (forall k, k ∈ U -> S k = S' k) -> forall k, k ∈ U -> left_of me S f b k = left_of me S' f b k.
  Proof. intros X k Hk. unfold left_of. now rewrite X. Qed.
  Lemma right_ext S S' f b : (forall k, k ∈ U -> S k = S' k) -> forall k, k ∈ U -> right_of me S f b k = right_of me S' f b k.
  Proof. intros X k Hk. unfold right_of. now rewrite X. Qed.
  Lemma cands_ext S S' : (forall k, k ∈ U -> S k = S' k) -> cands U me S = cands U me S'.
  Proof. apply alike_cands. repeat split; reflexivity. Qed.
  Lemma gain_ext S S' c : (forall k, k ∈ U -> S k = S' k) -> gain S c = gain S' c.
  Proof.
    intros X. unfold rows_gain. rewrite !(sum_if_ext S S') by exact X. rewrite !(sum_if_ext (left_of me S c.1 c.2) (left_of me S' c.1 c.2)) by (now apply left_ext). reflexivity.
  Qed.
  Lemma best_alone S G H : best_split U lam mi me [] vg vh vg vh (fun x => x) Ok S G H = guest_best U lam mi me vg vh S.
  Proof. unfold best_split. cbn. destruct (guest_best _ _ _ _ _ _ _) as [[g|]|e]; reflexivity. Qed.

  Lemma same_grow r : forall S S' t i, grow r S (sum_if S vg U) (sum_if S vh U) = Ok t -> clear r S t -> rows !! i = Some S' -> (forall k, k ∈ U -> S k = S' k) ->
    levels !! i = Some (bottom - r) -> r <= bottom ->
    same_tree i t /\ forall k, k ∈ U -> S k = true -> exists nd, in_leaf T rows k nd /\ (qabs (n_weight nd - route me [] t k) <= W)%Qc.
  Proof.
    induction r as [|r IH]; intros S S' t i EG CL HR SS HL LE.
    - destruct (nt_size _ _ _ _ _ _ _ _ _ _ _ _ _ _ _ NT) as [L1 _]. destruct (lookup_lt_is_Some_2 T i) as [nd Hnd]; [rewrite <- L1; eapply lookup_lt_Some; exact HR|].
      destruct (nt_node _ _ _ _ _ _ _ _ _ _ _ _ _ _ _ NT i nd S' _ Hnd HR HL) as (_ & (N1 & N2 & N3) & _ & N5).
      rewrite <- (sum_if_ext S S') in N1 by exact SS. rewrite <- (sum_if_ext S S' vh) in N2 by exact SS. rewrite <- (sum_if_ext S S') in N3 by exact SS. rewrite <- (sum_if_ext S S' vh) in N3 by exact SS.
      assert (LF : n_leaf nd = true).
      { destruct (n_leaf nd) eqn:El; [reflexivity|]. destruct (N5 eq_refl) as (f & b & p & x & l & r & Sl & Sr & _ & _ & _ & _ & [LT _] & _). lia. }
      cbn [TreeSpec.grow] in EG. unfold sweight in EG. destruct (decide _) as [Z0|Z0]; [discriminate|]. cbn [mbind res_bind] in EG. destruct (best_split _ _ _ _ _ _ _ _ _ _ _ _ _ _) as [o|e] in EG; [|discriminate]. cbn [mbind res_bind] in EG.
      injection EG as <-. rewrite (Qcplus_comm (sum_if S vh U) lam) in N3. split; [eapply same_leaf; eassumption|]. intros k Hk HSk. exists nd. split; [|exact N3]. exists i, S'. rewrite <- (SS k Hk). auto.
    - destruct (nt_size _ _ _ _ _ _ _ _ _ _ _ _ _ _ _ NT) as [L1 _]. destruct (lookup_lt_is_Some_2 T i) as [nd Hnd]; [rewrite <- L1; eapply lookup_lt_Some; exact HR|].
      destruct (nt_node _ _ _ _ _ _ _ _ _ _ _ _ _ _ _ NT i nd S' _ Hnd HR HL) as (_ & (N1 & N2 & N3) & N4 & N5).
      rewrite <- (sum_if_ext S S') in N1 by exact SS. rewrite <- (sum_if_ext S S' vh) in N2 by exact SS. rewrite <- (sum_if_ext S S') in N3 by exact SS. rewrite <- (sum_if_ext S S' vh) in N3 by exact SS. rewrite (Qcplus_comm (sum_if S vh U) lam) in N3.
      assert (GE : forall c, gain S' c = gain S c) by (intros c; apply gain_ext; intros k Hk; symmetry; now apply SS). assert (CE : cands U me S' = cands U me S) by (apply cands_ext; intros k Hk; symmetry; now apply SS).
      cbn [TreeSpec.grow] in EG. unfold sweight in EG at 1. destruct (decide _) as [Z0|Z0]; [discriminate|]. cbn [mbind res_bind] in EG. rewrite best_alone in EG. destruct (guest_best _ _ _ _ _ _ _) as [o|e] eqn:EB; [|discriminate]. cbn [mbind res_bind] in EG.
      set (w := (- sum_if S vg U / (lam + sum_if S vh U))%Qc) in *.
      assert (LEAF : t = TLeaf w (sum_if S vg U) (sum_if S vh U) -> same_tree i t /\ forall k, k ∈ U -> S k = true -> exists nd, in_leaf T rows k nd /\ (qabs (n_weight nd - route me [] t k) <= W)%Qc).
      { intros ->. cbn [FloatTreeSpec.clear] in CL. destruct CL as [CL|CL]; [discriminate|]. assert (LF : n_leaf nd = true).
        { destruct (n_leaf nd) eqn:El; [reflexivity|]. destruct (N5 eq_refl) as (f & b & p & x & l & r' & Sl & Sr & _ & _ & _ & _ & (_ & X1 & X2 & _) & _). rewrite CE in X1. rewrite GE in X2. specialize (CL _ X1).
          exfalso. exact (Qclt_not_le _ _ X2 CL). }
        split; [eapply same_leaf; eassumption|]. intros k Hk HSk. exists nd. split; [|exact N3]. exists i, S'. rewrite <- (SS k Hk). auto. }
      destruct o as [[c x]|]; [|injection EG as <-; now apply LEAF].
      destruct (qleb x (mi + FLOAT_ZERO)%Qc); [injection EG as <-; now apply LEAF|]. clear LEAF.
      unfold guest_best in EB.
      assert (CG : ch_own c = None /\ (ch_fid c, ch_bin c) ∈ cands U me S /\ ch_g c = sum_if (left_of me S (ch_fid c) (ch_bin c)) vg U /\ ch_h c = sum_if (left_of me S (ch_fid c) (ch_bin c)) vh U).
      { unfold propose in EB. cbv zeta in EB. destruct (mapR _ _) as [ll|e] eqn:El in EB; [|discriminate]. cbn [mbind res_bind] in EB. injection EB as EB.
        destruct (mapR_tag _ _ _ _ El) as (xs & _ & ->). apply first_best_elem, elem_of_list_In, in_combine_l in EB. apply in_map_iff in EB as ([f b] & <- & HC). apply elem_of_list_In in HC. auto. }
      destruct CG as (OWN & HC & CG & CH). unfold goes, owner in EG. rewrite OWN in EG.
      destruct (grow r (left_of me S (ch_fid c) (ch_bin c)) (ch_g c) (ch_h c)) as [tl|e] eqn:GL; [|discriminate]. cbn [mbind res_bind] in EG.
      destruct (grow r (right_of me S (ch_fid c) (ch_bin c)) (sum_if S vg U - ch_g c)%Qc (sum_if S vh U - ch_h c)%Qc) as [tr|e] eqn:GR; [|discriminate]. cbn [mbind res_bind] in EG. injection EG as <-.
      rewrite CG, CH in GL. rewrite CG, CH, !sum_right in GR. cbn [FloatTreeSpec.clear] in CL. destruct CL as (C1 & C2 & C3 & C4). replace (Datatypes.S r - 1) with r in C3, C4 by lia.
      assert (LF : n_leaf nd = false).
      { destruct (n_leaf nd) eqn:El; [exfalso|reflexivity]. destruct (N4 eq_refl) as [X|X]; [lia|]. specialize (X (ch_fid c, ch_bin c)). rewrite CE, GE in X. exact (Qclt_not_le _ _ C1 (X HC)). }
      destruct (N5 LF) as (f & b & p & v & l & r' & Sl & Sr & F1 & F2 & F3 & F4 & (_ & F6 & _ & F8) & F9 & F10 & _ & F12 & F13 & F14 & F15 & F16 & F17).
      assert (FB : (f, b) = (ch_fid c, ch_bin c)).
      { destruct (decide ((f, b) = (ch_fid c, ch_bin c))) as [Y|N]; [exact Y|exfalso]. rewrite CE in F6. specialize (C2 _ F6 N). specialize (F8 (ch_fid c, ch_bin c)). rewrite CE, !GE in F8. exact (Qclt_not_le _ _ C2 (F8 HC)). }
      injection FB as -> ->.
      destruct (IH _ Sl tl l GL C3 F12) as [A1 A2]; [intros k Hk; rewrite F16; now apply left_ext|rewrite F14; f_equal; lia|lia|].
      destruct (IH _ Sr tr r' GR C4 F13) as [B1 B2]; [intros k Hk; rewrite F17; now apply right_ext|rewrite F15; f_equal; lia|lia|].
      split; [eapply same_split; eassumption|]. intros k Hk HSk. cbn [route]. unfold goes, owner. rewrite OWN. unfold left_of at 1. cbn [andb].
      destruct (p_bin me k (ch_fid c) <=? ch_bin c) eqn:Eb; [apply (A2 k Hk)|apply (B2 k Hk)]; unfold left_of, right_of; now rewrite HSk, Eb.
  Qed.
End Same.
