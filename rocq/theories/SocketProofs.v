(** Proofs about the system on sockets. *)
From Verif Require Export SocketSpec ProcProofs TransferProofs TreeRun.
Local Open Scope nat_scope.

(** *** Byte by byte *)
Inductive want (I R : Type) : Type := WNone | WOut (i : I) (b : Z) (p : bprog I R) | WIn (i : I) (n : nat) (k : bytes -> bprog I R).
Arguments WNone {I R}. Arguments WOut {I R}. Arguments WIn {I R}.
Definition wants {I R} (p : bprog I R) : want I R :=
  match p with
  | BWrite i b w k => WOut i b (write i w k)
  | BHead i k => WIn i 16 k
  | BBody i n got k => WIn i 1 (fun c => body i n (got ++ c) k)
  | _ => WNone
  end.

Section Fine.
Context {R T : Type} (cd cu : nat -> nat).
Local Notation bsys := (bsys R T).

Inductive fine : bsys -> bsys -> Prop :=
| f_gout i b g g' hs p d u : wants g = WOut i b g' -> hs !! i = Some (p, d, u) -> length d < cd i -> fine (BSys g hs) (BSys g' (<[i := (p, d ++ [b], u)]> hs))
| f_gin i n k c g hs p d u : wants g = WIn i n k -> hs !! i = Some (p, d, c ++ u) -> length c = n -> fine (BSys g hs) (BSys (k c) (<[i := (p, d, u)]> hs))
| f_hout g j i b p p' hs d u : hs !! j = Some (p, d, u) -> wants p = WOut i b p' -> length u < cu j -> fine (BSys g hs) (BSys g (<[j := (p', d, u ++ [b])]> hs))
| f_hin g j i n k c p hs d u : hs !! j = Some (p, c ++ d, u) -> wants p = WIn i n k -> length c = n -> fine (BSys g hs) (BSys g (<[j := (k c, d, u)]> hs)).

Definition gstep (s t : bsys) : Prop :=
  (exists i b p d u, wants (b_guest s) = WOut i b (b_guest t) /\ b_hosts s !! i = Some (p, d, u) /\ length d < cd i /\ b_hosts t = <[i := (p, d ++ [b], u)]> (b_hosts s)) \/
  (exists i n k c p d u, wants (b_guest s) = WIn i n k /\ b_hosts s !! i = Some (p, d, c ++ u) /\ length c = n /\ b_guest t = k c /\ b_hosts t = <[i := (p, d, u)]> (b_hosts s)).
Definition hstep (j : nat) (s t : bsys) : Prop := b_guest t = b_guest s /\
  ((exists i b p p' d u, b_hosts s !! j = Some (p, d, u) /\ wants p = WOut i b p' /\ length u < cu j /\ b_hosts t = <[j := (p', d, u ++ [b])]> (b_hosts s)) \/
   (exists i n k c p d u, b_hosts s !! j = Some (p, c ++ d, u) /\ wants p = WIn i n k /\ length c = n /\ b_hosts t = <[j := (k c, d, u)]> (b_hosts s))).
Lemma fine_cases s t : fine s t <-> gstep s t \/ exists j, hstep j s t.
Proof.
  split.
  - intros H. inversion H; subst; [left; left|left; right|right; eexists; split; [reflexivity|left]|right; eexists; split; [reflexivity|right]]; cbn; repeat eexists; eauto.
  - destruct s as [g hs], t as [g' hs']. intros [[(i & b & p & d & u & W & L & C & E)|(i & n & k & c & p & d & u & W & L & C & E0 & E)]|(j & E0 & [(i & b & p & p' & d & u & L & W & C & E)|(i & n & k & c & p & d & u & L & W & C & E)])]; cbn in *; subst.
    + eapply f_gout; eauto.
    + eapply f_gin; eauto.
    + eapply f_hout; eauto.
    + eapply f_hin; eauto.
Qed.
Lemma gstep_det s t1 t2 : gstep s t1 -> gstep s t2 -> t1 = t2.
Proof.
  destruct s as [g hs], t1 as [g1 h1], t2 as [g2 h2].
  intros [(i & b & p & d & u & W & L & C & E)|(i & n & k & c & p & d & u & W & L & C & E0 & E)] [(i' & b' & p' & d' & u' & W' & L' & C' & E')|(i' & n' & k' & c' & p' & d' & u' & W' & L' & C' & E0' & E')]; cbn in *; subst;
    rewrite W in W'; try discriminate W'; injection W'; clear W'; intros; subst.
  - congruence.
  - rewrite L in L'. injection L' as -> -> X. apply app_inj_1 in X as [-> ->]; [reflexivity|congruence].
Qed.
Lemma hstep_det j s t1 t2 : hstep j s t1 -> hstep j s t2 -> t1 = t2.
Proof.
  destruct s as [g hs], t1 as [g1 h1], t2 as [g2 h2].
  intros [E0 [(i & b & p & p1 & d & u & L & W & C & E)|(i & n & k & c & p & d & u & L & W & C & E)]] [E0' [(i' & b' & p' & p1' & d' & u' & L' & W' & C' & E')|(i' & n' & k' & c' & p' & d' & u' & L' & W' & C' & E')]]; cbn in *; subst;
    rewrite L in L'; injection L' as -> X Y; rewrite W in W'; try discriminate W'; injection W'; intros; subst.
  - reflexivity.
  - apply app_inj_1 in X as [-> ->]; [reflexivity|congruence].
Qed.
(** A step of the guest and one of a host. *)
Lemma gh_diamond j s t1 t2 : gstep s t1 -> hstep j s t2 -> exists t, hstep j t1 t /\ gstep t2 t.
Proof.
  destruct s as [g hs], t1 as [g1 h1], t2 as [g2 h2].
  intros [(i & b & p & d & u & W & L & C & E)|(i & n & k & c & p & d & u & W & L & C & E0 & E)] [E0' [(i' & b' & p' & p1' & d' & u' & L' & W' & C' & E')|(i' & n' & k' & c' & p' & d' & u' & L' & W' & C' & E')]]; cbn in *; subst;
    pose proof (lookup_lt_Some _ _ _ L) as LT; pose proof (lookup_lt_Some _ _ _ L') as LT';
    (destruct (decide (i = j)) as [->|NE]; [rewrite L in L'; injection L' as -> X Y; subst|]).
  - exists (BSys g1 (<[j := (p1', d' ++ [b], u' ++ [b'])]> hs)). split.
    + split; [reflexivity|]. left. cbn. exists i', b', p', p1', (d' ++ [b]), u'. rewrite list_lookup_insert by exact LT. rewrite list_insert_insert. auto.
    + left. cbn. exists j, b, p1', d', (u' ++ [b']). rewrite list_lookup_insert by exact LT. rewrite list_insert_insert. auto.
  - exists (BSys g1 (<[j := (p1', d', u' ++ [b'])]> (<[i := (p, d ++ [b], u)]> hs))). split.
    + split; [reflexivity|]. left. cbn. exists i', b', p', p1', d', u'. rewrite list_lookup_insert_ne by exact NE. auto.
    + left. cbn. exists i, b, p, d, u. rewrite list_lookup_insert_ne by congruence. rewrite list_insert_commute by congruence. auto.
  - exists (BSys g1 (<[j := (k' c', d' ++ [b], u')]> hs)). split.
    + split; [reflexivity|]. right. cbn. exists i', (length c'), k', c', p', (d' ++ [b]), u'. rewrite list_lookup_insert by exact LT. rewrite list_insert_insert, <- app_assoc. auto.
    + left. cbn. exists j, b, (k' c'), d', u'. rewrite list_lookup_insert by exact LT. rewrite list_insert_insert. rewrite app_length in C. split; [exact W|]. split; [reflexivity|]. split; [lia|reflexivity].
  - exists (BSys g1 (<[j := (k' c', d', u')]> (<[i := (p, d ++ [b], u)]> hs))). split.
    + split; [reflexivity|]. right. cbn. exists i', (length c'), k', c', p', d', u'. rewrite list_lookup_insert_ne by exact NE. auto.
    + left. cbn. exists i, b, p, d, u. rewrite list_lookup_insert_ne by congruence. rewrite list_insert_commute by congruence. auto.
  - exists (BSys (k c) (<[j := (p1', d', u ++ [b'])]> hs)). split.
    + split; [reflexivity|]. left. cbn. exists i', b', p', p1', d', u. rewrite list_lookup_insert by exact LT. rewrite list_insert_insert. rewrite app_length in C'. split; [reflexivity|]. split; [exact W'|]. split; [lia|reflexivity].
    + right. cbn. exists j, (length c), k, c, p1', d', (u ++ [b']). rewrite list_lookup_insert by exact LT. rewrite list_insert_insert, <- app_assoc. auto.
  - exists (BSys (k c) (<[j := (p1', d', u' ++ [b'])]> (<[i := (p, d, u)]> hs))). split.
    + split; [reflexivity|]. left. cbn. exists i', b', p', p1', d', u'. rewrite list_lookup_insert_ne by exact NE. auto.
    + right. cbn. exists i, (length c), k, c, p, d, u. rewrite list_lookup_insert_ne by congruence. rewrite list_insert_commute by congruence. auto.
  - exists (BSys (k c) (<[j := (k' c', d', u)]> hs)). split.
    + split; [reflexivity|]. right. cbn. exists i', (length c'), k', c', p', d', u. rewrite list_lookup_insert by exact LT. rewrite list_insert_insert. auto.
    + right. cbn. exists j, (length c), k, c, (k' c'), d', u. rewrite list_lookup_insert by exact LT. rewrite list_insert_insert. auto.
  - exists (BSys (k c) (<[j := (k' c', d', u')]> (<[i := (p, d, u)]> hs))). split.
    + split; [reflexivity|]. right. cbn. exists i', (length c'), k', c', p', d', u'. rewrite list_lookup_insert_ne by exact NE. auto.
    + right. cbn. exists i, (length c), k, c, p, d, u. rewrite list_lookup_insert_ne by congruence. rewrite list_insert_commute by congruence. auto.
Qed.
(** Steps of two hosts. *)
Lemma hh_diamond i j s t1 t2 : i <> j -> hstep i s t1 -> hstep j s t2 -> exists t, hstep j t1 t /\ hstep i t2 t.
Proof.
  destruct s as [g hs], t1 as [g1 h1], t2 as [g2 h2]. intros NE.
  intros [E0 X] [E0' Y]. cbn in *. subst g1 g2.
  assert (exists x, h1 = <[i := x]> hs /\ exists y, h2 = <[j := y]> hs) as (x & -> & y & ->).
  { destruct X as [(q & b & p & p1 & d & u & L & W & C & E)|(q & n & k & c & p & d & u & L & W & C & E)], Y as [(q' & b' & p' & p1' & d' & u' & L' & W' & C' & E')|(q' & n' & k' & c' & p' & d' & u' & L' & W' & C' & E')]; eauto. }
  assert (INS : forall (a : nat) v w, a < length hs -> <[a := v]> hs = <[a := w]> hs -> v = w).
  { intros a v w LA EQ. apply (f_equal (fun l => l !! a)) in EQ. cbn beta in EQ. rewrite !list_lookup_insert in EQ by exact LA. now injection EQ. }
  exists (BSys g (<[j := y]> (<[i := x]> hs))). split; (split; [reflexivity|]); cbn.
  - destruct Y as [(q & b & p & p1 & d & u & L & W & C & E)|(q & n & k & c & p & d & u & L & W & C & E)]; apply INS in E as ->; try (eapply lookup_lt_Some; exact L).
    + left. exists q, b, p, p1, d, u. rewrite list_lookup_insert_ne by congruence. auto.
    + right. exists q, n, k, c, p, d, u. rewrite list_lookup_insert_ne by congruence. auto.
  - rewrite list_insert_commute by congruence. destruct X as [(q & b & p & p1 & d & u & L & W & C & E)|(q & n & k & c & p & d & u & L & W & C & E)]; apply INS in E as ->; try (eapply lookup_lt_Some; exact L).
    + left. exists q, b, p, p1, d, u. rewrite list_lookup_insert_ne by congruence. auto.
    + right. exists q, n, k, c, p, d, u. rewrite list_lookup_insert_ne by congruence. auto.
Qed.

Lemma fine_diamond (s t1 t2 : bsys) : fine s t1 -> fine s t2 -> t1 = t2 \/ exists t, fine t1 t /\ fine t2 t.
Proof.
  rewrite !fine_cases. intros [G1|[i H1]] [G2|[j H2]].
  - left. eapply gstep_det; eauto.
  - right. destruct (gh_diamond j s t1 t2 G1 H2) as (t & A & B). exists t. split; apply fine_cases; [right; eauto|now left].
  - right. destruct (gh_diamond i s t2 t1 G2 H1) as (t & A & B). exists t. split; apply fine_cases; [now left|right; eauto].
  - destruct (decide (i = j)) as [->|NE]; [left; eapply hstep_det; eauto|]. right. destruct (hh_diamond i j s t1 t2 NE H1 H2) as (t & A & B). exists t. split; apply fine_cases; right; eauto.
Qed.

Lemma fine_outcome_step n : forall (s t s1 : bsys), nsteps fine n s t -> nf fine t -> fine s s1 -> exists n', n = S n' /\ nsteps fine n' s1 t.
Proof.
  induction n as [|n IH]; intros s t s1 H NF H1.
  - inversion H; subst. destruct NF. now exists s1.
  - inversion H as [|? ? s0 ? H0 Hn]; subst. exists n. split; [reflexivity|].
    destruct (fine_diamond _ _ _ H0 H1) as [->|(w & W0 & W1)]; [exact Hn|].
    destruct (IH _ _ _ Hn NF W0) as (n' & -> & Hw). econstructor; eauto.
Qed.
Lemma fine_outcome n (s t : bsys) : nsteps fine n s t -> nf fine t -> forall m s', nsteps fine m s s' -> m <= n /\ nsteps fine (n - m) s' t.
Proof.
  intros H NF m. revert n s H. induction m as [|m IH]; intros n s H s' H'.
  - inversion H'; subst. rewrite Nat.sub_0_r. split; [lia|exact H].
  - inversion H' as [|? ? s1 ? H1 Hm]; subst. destruct (fine_outcome_step n s t s1 H NF H1) as (n' & -> & Hn).
    destruct (IH n' s1 Hn s' Hm) as [A B]. split; [lia|exact B].
Qed.

(** *** Any pieces *)
Lemma fine_bstep (s t : bsys) : fine s t -> bstep True cd cu s t.
Proof.
  intros H. inversion H as [i b g1 g' hs0 p d u W L C|i n k c g1 hs0 p d u W L C|g1 i q b p p' hs0 d u L W C|g1 i q n k c p hs0 d u L W C]; subst.
  - destruct g1 as [| |i' b' w k| |]; try discriminate W. injection W as -> -> <-. apply (b_gwrite True cd cu i b [] w w k hs0 p d u L eq_refl). cbn. lia.
  - destruct g1 as [| | |i' k'|i' n got k']; try discriminate W.
    + injection W as -> E <-. eapply b_ghead; [exact L|lia|auto].
    + injection W as -> E <-. pose proof (b_gbody True cd cu i n got k' c hs0 p d u L ltac:(lia)) as X. replace (S n - length c) with n in X by lia. exact X.
  - destruct p as [| |i' b' w k| |]; try discriminate W. injection W as -> -> <-. destruct q. apply (b_hwrite True cd cu g1 i b [] w w k hs0 d u L eq_refl). cbn. lia.
  - destruct q. destruct p as [| | |i' k'|i' n got k']; try discriminate W.
    + injection W as -> E <-. eapply b_hhead; [exact L|lia|auto].
    + injection W as -> E <-. pose proof (b_hbody True cd cu g1 i n got k' c hs0 d u L ltac:(lia)) as X. replace (S n - length c) with n in X by lia. exact X.
Qed.
Lemma bstep_fine (s t : bsys) : bstep True cd cu s t -> exists n, nsteps fine (S n) s t.
Proof.
  intros H. inversion H as [i b c w w' k hs p d u L E C|i k c hs p d u L C C1|i n got k c hs p d u L C|g j b c w w' k hs d u L E C|g j k c hs d u L C C1|g j n got k c hs d u L C]; subst; pose proof (lookup_lt_Some _ _ _ L) as LT.
  - exists (length c). clear H. revert b d hs L LT C. induction c as [|b' c IH]; intros b d hs L LT C.
    + eapply nsteps_l; [|constructor]. eapply f_gout; [reflexivity|exact L|cbn in C; lia].
    + eapply nsteps_l; [eapply f_gout; [reflexivity|exact L|cbn in C; lia]|]. cbn [app write].
      specialize (IH b' (d ++ [b]) (<[i := (p, d ++ [b], u)]> hs)). rewrite list_lookup_insert in IH by exact LT. rewrite insert_length, list_insert_insert, <- app_assoc in IH.
      apply IH; [reflexivity|exact LT|]. rewrite app_length. cbn in *. lia.
  - exists 0. eapply nsteps_l; [|constructor]. eapply f_gin; [reflexivity|exact L|auto].
  - exists (length c - 1). clear H. revert n got hs L LT C. induction c as [|b c IH]; intros n got hs L LT C; [cbn in C; lia|]. destruct c as [|b' c].
    + cbn [length]. eapply nsteps_l; [|constructor]. replace (S n - 1) with n by lia. apply (f_gin i 1 (fun c => body i n (got ++ c) k) [b]); [reflexivity|exact L|reflexivity].
    + cbn [length] in *. replace (S (S (S (length c)) - 1)) with (S (S (length c))) by lia. eapply nsteps_l; [apply (f_gin i 1 (fun c => body i n (got ++ c) k) [b] (BBody i n got k) hs p d ((b' :: c) ++ u) eq_refl L eq_refl)|]. cbv beta.
      destruct n as [|n]; [lia|]. cbn [body]. specialize (IH n (got ++ [b]) (<[i := (p, d, (b' :: c) ++ u)]> hs)). rewrite list_lookup_insert in IH by exact LT. rewrite insert_length, list_insert_insert, <- app_assoc in IH.
      replace (S (length c) - 1) with (length c) in IH by lia. replace (S (S n) - S (S (length c))) with (S n - S (length c)) by lia. apply IH; [reflexivity|exact LT|lia].
  - exists (length c). clear H. revert b u hs L LT C. induction c as [|b' c IH]; intros b u hs L LT C.
    + eapply nsteps_l; [|constructor]. eapply f_hout; [exact L|reflexivity|cbn in C; lia].
    + eapply nsteps_l; [eapply f_hout; [exact L|reflexivity|cbn in C; lia]|]. cbn [app write].
      specialize (IH b' (u ++ [b]) (<[j := (BWrite tt b' (c ++ w') k, d, u ++ [b])]> hs)). rewrite list_lookup_insert in IH by exact LT. rewrite insert_length, list_insert_insert, <- app_assoc in IH.
      apply IH; [reflexivity|exact LT|]. rewrite app_length. cbn in *. lia.
  - exists 0. eapply nsteps_l; [|constructor]. eapply f_hin; [exact L|reflexivity|auto].
  - exists (length c - 1). clear H. revert n got hs L LT C. induction c as [|b c IH]; intros n got hs L LT C; [cbn in C; lia|]. destruct c as [|b' c].
    + cbn [length]. eapply nsteps_l; [|constructor]. replace (S n - 1) with n by lia. apply (f_hin g j tt 1 (fun c => body tt n (got ++ c) k) [b] (BBody tt n got k) hs d u L); reflexivity.
    + cbn [length] in *. replace (S (S (S (length c)) - 1)) with (S (S (length c))) by lia. eapply nsteps_l; [apply (f_hin g j tt 1 (fun c => body tt n (got ++ c) k) [b] (BBody tt n got k) hs ((b' :: c) ++ d) u L eq_refl eq_refl)|]. cbv beta.
      destruct n as [|n]; [lia|]. cbn [body]. specialize (IH n (got ++ [b]) (<[j := (BBody tt n (got ++ [b]) k, (b' :: c) ++ d, u)]> hs)). rewrite list_lookup_insert in IH by exact LT. rewrite insert_length, list_insert_insert, <- app_assoc in IH.
      replace (S (length c) - 1) with (length c) in IH by lia. replace (S (S n) - S (S (length c))) with (S n - S (length c)) by lia. apply IH; [reflexivity|exact LT|lia].
Qed.
Lemma bsteps_fine m : forall (s t : bsys), nsteps (bstep True cd cu) m s t -> exists n, m <= n /\ nsteps fine n s t.
Proof.
  induction m as [|m IH]; intros s t H; inversion H as [|? ? u ? H1 H2]; subst; [exists 0; split; [lia|constructor]|].
  destruct (bstep_fine _ _ H1) as [n1 N1]. destruct (IH _ _ H2) as (n2 & L & N2). exists (S n1 + n2). split; [lia|]. eapply nsteps_trans; eauto.
Qed.
Lemma fines_bsteps n : forall (s t : bsys), nsteps fine n s t -> rtc (bstep True cd cu) s t.
Proof. induction n as [|n IH]; intros s t H; inversion H as [|? ? u ? H1 H2]; subst; [constructor|]. eapply rtc_l; [apply fine_bstep; exact H1|]. now apply IH. Qed.
Lemma b_outcome n (s t : bsys) : nsteps fine n s t -> nf fine t -> forall m s', nsteps (bstep True cd cu) m s s' -> m <= n /\ rtc (bstep True cd cu) s' t.
Proof.
  intros H NF m s' H'. destruct (bsteps_fine _ _ _ H') as (k & L & K). destruct (fine_outcome n s t H NF k s' K) as [A B]. split; [lia|]. eapply fines_bsteps; eauto.
Qed.
End Fine.

(** *** A message handed over *)
Section Hand.
Context {M R T : Type} (ser : M -> bytes) (des : bytes -> res M) (cd cu : nat -> nat).
Local Notation fine := (@fine R T cd cu).

Lemma gwrites i k p u : forall w d (hs : list (bprog unit T * bytes * bytes)), hs !! i = Some (p, d, u) -> length d + length w <= cd i ->
  rtc fine (BSys (write i w k) hs) (BSys k (<[i := (p, d ++ w, u)]> hs)).
Proof.
  induction w as [|b w IH]; intros d hs L C; pose proof (lookup_lt_Some _ _ _ L) as LT.
  - rewrite app_nil_r, list_insert_id by exact L. constructor.
  - cbn in C. eapply rtc_l; [eapply f_gout; [reflexivity|exact L|lia]|]. specialize (IH (d ++ [b]) (<[i := (p, d ++ [b], u)]> hs)).
    rewrite list_lookup_insert, list_insert_insert, <- app_assoc in IH by exact LT. apply IH; [reflexivity|]. rewrite app_length. cbn. lia.
Qed.
Lemma hwrites j k g d : forall w u (hs : list (bprog unit T * bytes * bytes)), hs !! j = Some (write tt w k, d, u) -> length u + length w <= cu j ->
  rtc fine (BSys g hs) (BSys g (<[j := (k, d, u ++ w)]> hs)).
Proof.
  induction w as [|b w IH]; intros u hs L C; pose proof (lookup_lt_Some _ _ _ L) as LT.
  - rewrite app_nil_r, list_insert_id by exact L. constructor.
  - cbn in C, L. eapply rtc_l; [eapply f_hout; [exact L|reflexivity|lia]|]. specialize (IH (u ++ [b]) (<[j := (write tt w k, d, u ++ [b])]> hs)).
    rewrite list_lookup_insert, list_insert_insert, <- app_assoc in IH by exact LT. apply IH; [reflexivity|]. rewrite app_length. cbn. lia.
Qed.
Lemma gpayload i k K u : 1 <= cd i -> forall w got (hs : list (bprog unit T * bytes * bytes)), hs !! i = Some (body tt (length w) got K, [], u) ->
  rtc fine (BSys (write i w k) hs) (BSys k (<[i := (K (got ++ w), [], u)]> hs)).
Proof.
  intros C. induction w as [|b w IH]; intros got hs L; pose proof (lookup_lt_Some _ _ _ L) as LT.
  - cbn in L |- *. rewrite app_nil_r, list_insert_id by exact L. constructor.
  - cbn in L. eapply rtc_l; [eapply f_gout; [reflexivity|exact L|cbn; lia]|].
    eapply rtc_l; [eapply (f_hin cd cu _ i tt 1 (fun c => body tt (length w) (got ++ c) K) [b] (BBody tt (length w) got K) _ [] u); [rewrite list_lookup_insert by exact LT; reflexivity|reflexivity|reflexivity]|].
    rewrite list_insert_insert. specialize (IH (got ++ [b]) (<[i := (body tt (length w) (got ++ [b]) K, [], u)]> hs)).
    rewrite list_lookup_insert, list_insert_insert, <- app_assoc in IH by exact LT. exact (IH eq_refl).
Qed.
Lemma hpayload i k K d : 1 <= cu i -> forall w got (hs : list (bprog unit T * bytes * bytes)), hs !! i = Some (write tt w k, d, []) ->
  rtc fine (BSys (body i (length w) got K) hs) (BSys (K (got ++ w)) (<[i := (k, d, [])]> hs)).
Proof.
  intros C. induction w as [|b w IH]; intros got hs L; pose proof (lookup_lt_Some _ _ _ L) as LT.
  - cbn in L |- *. rewrite app_nil_r, list_insert_id by exact L. constructor.
  - cbn in L. eapply rtc_l; [eapply f_hout; [exact L|reflexivity|cbn; lia]|].
    eapply rtc_l; [eapply (f_gin cd cu i 1 (fun c => body i (length w) (got ++ c) K) [b] (BBody i (length w) got K) _ (write tt w k) d []); [reflexivity|rewrite list_lookup_insert by exact LT; reflexivity|reflexivity]|].
    rewrite list_insert_insert. specialize (IH (got ++ [b]) (<[i := (write tt w k, d, [])]> hs)).
    rewrite list_lookup_insert, list_insert_insert, <- app_assoc in IH by exact LT. exact (IH eq_refl).
Qed.

Local Notation good := (intact ser des).
Lemma header_parses n : (0 <= n < 10 ^ 16)%Z -> parse_int (take 16 (header n)) = Some n.
Proof.
  intros H. rewrite take_ge by (rewrite header_length by exact H; lia). unfold header. destruct (digits_spec n (proj1 H)) as (A & B & C).
  rewrite parse_int_digits; [|exact A|exact B]. now rewrite C.
Qed.

Lemma hand_fine (s t : sys M R T) : (forall i, i < length (s_hosts s) -> 16 <= cd i /\ 16 <= cu i) -> hand s t -> (forall s' i p d u, step s s' -> s_hosts s' !! i = Some (p, d, u) -> Forall good (d ++ u)) ->
  rtc fine (on_sockets ser des s) (on_sockets ser des t).
Proof.
  intros CAP H Q. inversion H as [i m k f hs L|i m k f hs L]; subst; pose proof (lookup_lt_Some _ _ _ L) as LT; cbn in CAP; destruct (CAP i LT) as [CD CU].
  - assert (G : good m).
    { specialize (Q _ i (Recv tt f) [m] [] (step_gsend i m k hs _ _ _ L)). cbn in Q. rewrite list_lookup_insert in Q by exact LT. specialize (Q eq_refl). now inversion Q. }
    destruct G as [DE SZ]. set (n := Z.of_nat (length (ser m))) in *. assert (NB : (0 <= n < 10 ^ 16)%Z) by (unfold n in *; lia).
    unfold on_sockets. cbn [s_guest s_hosts]. change (map ?F (<[i := ?x]> hs)) with (F <$> <[i := x]> hs). rewrite list_fmap_insert. cbn [fst snd]. set (hs' := map _ hs). change (_ <$> hs) with hs'.
    assert (L' : hs' !! i = Some (wire ser des (Recv tt f), [], [])) by (unfold hs'; etransitivity; [apply list_lookup_fmap|]; rewrite L; reflexivity).
    pose proof (lookup_lt_Some _ _ _ L') as LT'. cbn [wire] in L' |- *. fold n.
    eapply rtc_transitive; [eapply gwrites; [exact L'|rewrite header_length by exact NB; cbn; lia]|]. cbn [app].
    eapply rtc_l; [eapply f_hin; [rewrite list_lookup_insert by exact LT'; rewrite (app_nil_r (header n)) at 1; reflexivity|reflexivity|now apply header_length]|].
    cbv beta. rewrite header_parses by exact NB. rewrite list_insert_insert. unfold n at 1. rewrite Nat2Z.id.
    eapply rtc_transitive; [eapply gpayload; [lia|rewrite list_lookup_insert by exact LT'; reflexivity]|]. cbn [app]. rewrite DE, list_insert_insert. constructor.
  - assert (G : good m).
    { specialize (Q _ i k [] [m] (step_hsend _ i m k hs _ _ L)). cbn in Q. rewrite list_lookup_insert in Q by exact LT. specialize (Q eq_refl). now inversion Q. }
    destruct G as [DE SZ]. set (n := Z.of_nat (length (ser m))) in *. assert (NB : (0 <= n < 10 ^ 16)%Z) by (unfold n in *; lia).
    unfold on_sockets. cbn [s_guest s_hosts]. change (map ?F (<[i := ?x]> hs)) with (F <$> <[i := x]> hs). rewrite list_fmap_insert. cbn [fst snd]. set (hs' := map _ hs). change (_ <$> hs) with hs'.
    assert (L' : hs' !! i = Some (wire ser des (Send tt m k), [], [])) by (unfold hs'; etransitivity; [apply list_lookup_fmap|]; rewrite L; reflexivity).
    pose proof (lookup_lt_Some _ _ _ L') as LT'. cbn [wire] in L' |- *. fold n in L'.
    eapply rtc_transitive; [eapply hwrites; [exact L'|rewrite header_length by exact NB; cbn; lia]|]. cbn [app].
    eapply rtc_l; [eapply f_gin; [reflexivity|rewrite list_lookup_insert by exact LT'; rewrite (app_nil_r (header n)) at 1; reflexivity|now apply header_length]|].
    cbv beta. rewrite header_parses by exact NB. rewrite list_insert_insert. unfold n at 1. rewrite Nat2Z.id.
    eapply rtc_transitive; [eapply hpayload; [lia|rewrite list_lookup_insert by exact LT'; reflexivity]|]. cbn [app]. rewrite DE, list_insert_insert. constructor.
Qed.

Lemma hands_fine (s t : sys M R T) : (forall i, i < length (s_hosts s) -> 16 <= cd i /\ 16 <= cu i) -> rtc hand s t -> carries s good -> rtc fine (on_sockets ser des s) (on_sockets ser des t).
Proof.
  intros CAP H. induction H as [|s u t H _ IH]; intros Q; [constructor|]. eapply rtc_transitive.
  - apply hand_fine; [exact CAP|exact H|]. intros s' i p d u' ST. apply Q. now apply rtc_once.
  - apply IH; [|intros s' i p d u' ST; apply Q; eapply rtc_transitive; [exact (hand_steps _ _ H)|exact ST]].
    intros i. inversion H; subst; cbn in *; rewrite insert_length; apply CAP.
Qed.

(** Parties that have stopped. *)
Definition stopped (s : sys M R T) : Prop := (forall i m k, s_guest s <> Send i m k) /\ (forall i k, s_guest s <> Recv i k) /\
  forall j h, s_hosts s !! j = Some h -> (forall m k, h.1.1 <> Send tt m k) /\ forall k, h.1.1 <> Recv tt k.
Lemma stopped_nf (s : sys M R T) : stopped s -> nf fine (on_sockets ser des s).
Proof.
  intros (G1 & G2 & HH) [t H]. inversion H as [i b g1 g' hs0 p d u W L C|i n k c g1 hs0 p d u W L C|g1 i q b p p' hs0 d u L W C|g1 i q n k c p hs0 d u L W C]; subst.
  - destruct (s_guest s); [discriminate W|discriminate W|now eapply G1|now eapply G2].
  - destruct (s_guest s); [discriminate W|discriminate W|now eapply G1|now eapply G2].
  - assert (X : exists h, s_hosts s !! i = Some h /\ p = wire ser des h.1.1). { pose proof (list_lookup_fmap (fun h : proc unit M T * list M * list M => (wire ser des h.1.1, [] : bytes, [] : bytes)) (s_hosts s) i) as E. change (_ <$> s_hosts s) with (map (fun h : proc unit M T * list M * list M => (wire ser des h.1.1, [] : bytes, [] : bytes)) (s_hosts s)) in E. rewrite E in L. destruct (s_hosts s !! i) as [h|]; [|discriminate]. injection L as <- _ _. eauto. }
    destruct X as (h & Lh & ->). destruct (HH i h Lh) as [A B]. destruct h.1.1 as [| |[] |[] ]; [discriminate W|discriminate W|now eapply A|now eapply B].
  - assert (X : exists h, s_hosts s !! i = Some h /\ p = wire ser des h.1.1). { pose proof (list_lookup_fmap (fun h : proc unit M T * list M * list M => (wire ser des h.1.1, [] : bytes, [] : bytes)) (s_hosts s) i) as E. change (_ <$> s_hosts s) with (map (fun h : proc unit M T * list M * list M => (wire ser des h.1.1, [] : bytes, [] : bytes)) (s_hosts s)) in E. rewrite E in L. destruct (s_hosts s !! i) as [h|]; [|discriminate]. injection L as <- _ _. eauto. }
    destruct X as (h & Lh & ->). destruct (HH i h Lh) as [A B]. destruct h.1.1 as [| |[] |[] ]; [discriminate W|discriminate W|now eapply A|now eapply B].
Qed.

(** Whatever runs by hand-overs runs the same on sockets. *)
Lemma socket_outcome (s t : sys M R T) : (forall i, i < length (s_hosts s) -> 16 <= cd i /\ 16 <= cu i) -> carries s good -> rtc hand s t -> stopped t ->
  exists N, forall m s', nsteps (bstep True cd cu) m (on_sockets ser des s) s' -> m <= N /\ rtc (bstep True cd cu) s' (on_sockets ser des t).
Proof.
  intros CAP Q H ST. destruct (proj1 (rtc_nsteps _ _) (hands_fine s t CAP H Q)) as [N HN]. exists N. apply b_outcome; [exact HN|now apply stopped_nf].
Qed.
Lemma done_sockets (s : sys M R T) r rs : roomy (length (s_hosts s)) cd cu -> carries s good -> rtc hand s (done r rs) -> socket_ends ser des cd cu s r rs.
Proof.
  intros CAP Q H. destruct (socket_outcome s _ CAP Q H) as [N HN].
  - split; [discriminate|]. split; [discriminate|]. intros j h L. cbn in L. apply elem_of_list_lookup_2, elem_of_list_fmap in L as (x & -> & _). split; discriminate.
  - exists N. intros q s' ST. destruct (HN q s' ST) as [A B]. split; [exact A|]. replace (finished r rs) with (on_sockets ser des (done r rs : sys M R T)); [exact B|].
    unfold on_sockets, finished, done. cbn. now rewrite map_map.
Qed.
End Hand.

(** *** Which messages are sent *)
(** A run that stops at a message outside [Q] *)
Fixpoint fence {I M R} (Q : M -> bool) (p : proc I M R) : proc I M R :=
  match p with
  | Send i m k => if Q m then Send i m (fence Q k) else Fail AssertionError
  | Recv i k => Recv i (fun m => fence Q (k m))
  | _ => p
  end.
Section Fence.
Context {M R T : Type} (Q : M -> bool).
Local Notation sys := (sys M R T).
Definition ghost (h : proc unit M T * list M * list M) : proc unit M T * list M * list M := (fence Q h.1.1, h.1.2, h.2).
Definition gsys (s : sys) : sys := Sys (fence Q (s_guest s)) (map ghost (s_hosts s)).
Definition broken (s : sys) : Prop := s_guest s = Fail AssertionError \/ exists j d u, s_hosts s !! j = Some (Fail AssertionError, d, u).
Lemma broken_step s t : broken s -> step s t -> broken t.
Proof.
  intros [B|(j & d & u & B)] H.
  - left. inversion H; subst; cbn in *; congruence.
  - right. exists j. inversion H as [i m k hs p d' u' L|i k hs p d' m u' L|g0 i m k hs d' u' L|g0 i k hs m d' u' L]; subst; cbn in *; pose proof (lookup_lt_Some _ _ _ L) as LT;
      (destruct (decide (i = j)) as [->|NE]; [rewrite L in B; injection B; intros; subst; try discriminate; rewrite list_lookup_insert by exact LT; eauto|rewrite list_lookup_insert_ne by exact NE; eauto]).
Qed.
Lemma broken_steps n : forall s t, broken s -> nsteps step n s t -> broken t.
Proof. induction n as [|n IH]; intros s t B H; inversion H; subst; [exact B|]. eapply IH; [|eassumption]. eapply broken_step; eauto. Qed.
Lemma glook s j : s_hosts (gsys s) !! j = ghost <$> s_hosts s !! j.
Proof. cbn. exact (list_lookup_fmap ghost (s_hosts s) j). Qed.
Lemma gsys_step s t : step s t -> step (gsys s) (gsys t) /\ (forall i p d u, s_hosts t !! i = Some (p, d, u) -> (forall i p d u, s_hosts s !! i = Some (p, d, u) -> Forall (fun m => Q m = true) (d ++ u)) -> Forall (fun m => Q m = true) (d ++ u)) \/ broken (gsys s).
Proof.
  intros H. inversion H as [i m k hs p d u L|i k hs p d m u L|g i m k hs d u L|g i k hs m d u L]; subst; pose proof (lookup_lt_Some _ _ _ L) as LT;
    pose proof (list_lookup_fmap ghost hs i : map ghost hs !! i = _) as GL; rewrite L in GL; cbn in GL; unfold ghost at 2 in GL; cbn [fst snd] in GL;
    (assert (INS : forall x, map ghost (<[i := x]> hs) = <[i := ghost x]> (map ghost hs)) by (intros x; exact (list_fmap_insert ghost hs i x))).
  - destruct (Q m) eqn:EQ; [|right; left; cbn; now rewrite EQ]. left. split.
    + unfold gsys. cbn [s_guest s_hosts fence]. rewrite EQ, INS. eapply step_gsend. exact GL.
    + intros j p' d' u' L' F. cbn in L'. destruct (decide (i = j)) as [->|NE]; [|rewrite list_lookup_insert_ne in L' by exact NE; eapply F; exact L'].
      rewrite list_lookup_insert in L' by exact LT. injection L' as <- <- <-. specialize (F j p d u L). rewrite !Forall_app in *. rewrite Forall_singleton. tauto.
  - left. split.
    + unfold gsys. cbn [s_guest s_hosts fence]. rewrite INS. eapply (step_grecv i (fun m => fence Q (k m))). exact GL.
    + intros j p' d' u' L' F. cbn in L'. destruct (decide (i = j)) as [->|NE]; [|rewrite list_lookup_insert_ne in L' by exact NE; eapply F; exact L'].
      rewrite list_lookup_insert in L' by exact LT. injection L' as <- <- <-. specialize (F j p d (m :: u) L). rewrite !Forall_app, Forall_cons in *. tauto.
  - destruct (Q m) eqn:EQ.
    + left. split.
      * unfold gsys. cbn [s_guest s_hosts]. rewrite INS. eapply (step_hsend _ i m (fence Q k)). cbn [fst snd fence] in GL. rewrite EQ in GL. exact GL.
      * intros j p' d' u' L' F. cbn in L'. destruct (decide (i = j)) as [->|NE]; [|rewrite list_lookup_insert_ne in L' by exact NE; eapply F; exact L'].
        rewrite list_lookup_insert in L' by exact LT. injection L' as <- <- <-. specialize (F j _ d u L). rewrite !Forall_app in *. rewrite Forall_singleton. tauto.
    + right. right. exists i, d, u. cbn [s_hosts gsys]. cbn in GL. rewrite EQ in GL. exact GL.
  - left. split.
    + unfold gsys. cbn [s_guest s_hosts]. rewrite INS. eapply (step_hrecv _ i (fun m => fence Q (k m))). exact GL.
    + intros j p' d' u' L' F. cbn in L'. destruct (decide (i = j)) as [->|NE]; [|rewrite list_lookup_insert_ne in L' by exact NE; eapply F; exact L'].
      rewrite list_lookup_insert in L' by exact LT. injection L' as <- <- <-. specialize (F j _ (m :: d) u L). rewrite !Forall_app, Forall_cons in *. tauto.
Qed.
Lemma fence_carries fuel s r rs : (forall i p d u, s_hosts s !! i = Some (p, d, u) -> d = [] /\ u = []) -> (run fuel (gsys s)).2 = done r rs -> carries s (fun m => Q m = true).
Proof.
  intros EM RU. pose proof (run_ok fuel (gsys s)) as RO. rewrite RU in RO. assert (X : forall n s', nsteps step n s s' -> nsteps step n (gsys s) (gsys s') /\ forall i p d u, s_hosts s' !! i = Some (p, d, u) -> Forall (fun m => Q m = true) (d ++ u)).
  { intros n. induction n as [|n IH]; intros s' H.
    - inversion H; subst. split; [constructor|]. intros i p d u L. destruct (EM i p d u L) as [-> ->]. constructor.
    - apply nsteps_inv_r in H as (s1 & H1 & H2). destruct (IH s1 H1) as [A B]. destruct (gsys_step s1 s' H2) as [[C D]|BR].
      + split; [eapply nsteps_r; eauto|]. intros i p d u L. eapply D; eauto.
      + exfalso. destruct (outcome _ _ _ RO (done_nf r rs) n _ A) as [_ E]. apply (broken_steps _ _ _ BR) in E. destruct E as [E|(j & d & u & E)]; [discriminate E|].
        apply elem_of_list_lookup_2 in E. cbn in E. apply elem_of_list_fmap in E as (x & E & _). discriminate E. }
  intros s' i p d u H L. apply rtc_nsteps in H as [n H]. exact (proj2 (X n s' H) i p d u L).
Qed.
End Fence.

(** Finitely many messages are sent in a run that ends. *)
Section Finite.
Context {M R T : Type}.
Definition flying (s : sys M R T) : list M := mjoin ((fun h : proc unit M T * list M * list M => h.1.2 ++ h.2) <$> s_hosts s).
Lemma successors (s : sys M R T) : exists l : list (sys M R T), forall t, step s t <-> t ∈ l.
Proof.
  exists (omap (fun x => x) (guest_step s :: map (host_step s) (seq 0 (length (s_hosts s))))). intros t. rewrite elem_of_list_omap. split.
  - intros H. exists (Some t). split; [|reflexivity].
    inversion H as [i m k hs p d u L|i k hs p d m u L|g i m k hs d u L|g i k hs m d u L]; subst; pose proof (lookup_lt_Some _ _ _ L) as LT.
    + unfold guest_step. cbn [s_guest s_hosts]. rewrite L. left.
    + unfold guest_step. cbn [s_guest s_hosts]. rewrite L. left.
    + right. apply elem_of_list_fmap. exists i. split; [|apply elem_of_seq; cbn; lia]. unfold host_step. cbn [s_guest s_hosts]. now rewrite L.
    + right. apply elem_of_list_fmap. exists i. split; [|apply elem_of_seq; cbn; lia]. unfold host_step. cbn [s_guest s_hosts]. now rewrite L.
  - intros (o & H & ->). apply elem_of_cons in H as [H|H]; [now apply guest_step_ok|]. apply elem_of_list_fmap in H as (j & H & _). now apply (host_step_ok s j).
Qed.
Lemma carries_finite N : forall (s t : sys M R T), nsteps step N s t -> nf step t -> exists L : list M, carries s (fun m => m ∈ L).
Proof.
  assert (HERE : forall (s : sys M R T) i p d u, s_hosts s !! i = Some (p, d, u) -> Forall (fun m => m ∈ flying s) (d ++ u)).
  { intros s i p d u L. apply Forall_forall. intros m Hm. unfold flying. apply elem_of_list_join. exists (d ++ u). split; [exact Hm|]. apply elem_of_list_fmap. exists (p, d, u). split; [reflexivity|]. eapply elem_of_list_lookup_2; eauto. }
  induction N as [|N IH]; intros s t H NF.
  - inversion H; subst. exists (flying t). intros s' i p d u ST. assert (s' = t) as ->; [|apply HERE]. destruct ST as [|x y z S1 _]; [reflexivity|]. destruct NF. eexists. exact S1.
  - destruct (successors s) as [l Hl]. assert (X : exists L : list M, forall s1, s1 ∈ l -> carries s1 (fun m => m ∈ L)).
    { assert (Y : forall s1, s1 ∈ l -> exists L : list M, carries s1 (fun m => m ∈ L)).
      { intros s1 S1. apply Hl in S1. destruct (outcome_step (Datatypes.S N) s t s1 H NF S1) as (n' & [= <-] & Hn). eapply IH; eauto. }
      clear Hl. induction l as [|a l IHl].
      - exists []. intros s1 Hs1. now apply elem_of_nil in Hs1.
      - destruct IHl as [L HL]; [intros s1 Hs1; apply Y; now right|]. destruct (Y a ltac:(left)) as [La HLa]. exists (La ++ L). intros s1 Hs1 s' i p d u ST LK.
        apply elem_of_cons in Hs1 as [->|Hs1]; [specialize (HLa s' i p d u ST LK); eapply Forall_impl; [exact HLa|]|specialize (HL s1 Hs1 s' i p d u ST LK); eapply Forall_impl; [exact HL|]]; cbv beta; intros m Hm; apply elem_of_app; auto. }
    destruct X as [L HL]. exists (flying s ++ L). intros s' i p d u ST LK. destruct ST as [s'|s' s1 z S1 ST].
    + eapply Forall_impl; [exact (HERE _ _ _ _ _ LK)|]. intros m Hm. apply elem_of_app. now left.
    + apply Hl in S1. eapply Forall_impl; [exact (HL _ S1 _ i p d u ST LK)|]. intros m Hm. apply elem_of_app. now right.
Qed.
(** So there is a way to write them down: by their numbers. *)
Lemma carries_intact `{EqDecision M} (s t : sys M R T) N : nsteps step N s t -> nf step t -> exists ser des, carries s (intact ser des).
Proof.
  intros H NF. destruct (carries_finite N s t H NF) as [L HL].
  exists (fun m => [Z.of_nat (match list_find (fun x => x = m) L with Some (i, _) => i | None => 0 end)]), (fun b => match b with [z] => match L !! Z.to_nat z with Some m => Ok m | None => Err ValueError end | _ => Err ValueError end).
  intros s' i p d u ST LK. eapply Forall_impl; [exact (HL s' i p d u ST LK)|]. cbv beta. intros m Hm. split; [|vm_compute; reflexivity].
  destruct (list_find_elem_of (fun x => x = m) L m Hm eq_refl) as [[k x] F]. rewrite F. apply list_find_Some in F as (F & -> & _). cbv beta iota. now rewrite Nat2Z.id, F.
Qed.
End Finite.
