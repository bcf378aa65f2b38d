(** Proofs about runs in which processes end. *)
From Verif Require Export CloseSpec.
Local Open Scope nat_scope.

Lemma ins {A} (l : list A) i x y : l !! i = Some y -> <[i := x]> l !! i = Some x.
Proof. intros H. eapply list_lookup_insert, lookup_lt_Some, H. Qed.
Lemma insert_cases {A} (l : list A) i j x y z : l !! i = Some y -> <[i := x]> l !! j = Some z -> i = j /\ z = x \/ i <> j /\ l !! j = Some z.
Proof. intros H L. destruct (decide (i = j)) as [->|ne]; [rewrite (ins _ _ _ _ H) in L; injection L as ->; now left|]. rewrite list_lookup_insert_ne in L by done. now right. Qed.

Section Close.
Context {R T : Type} (cd cu : nat -> nat).
Local Notation bsys := (bsys R T).
Local Notation bstep := (@bstep R T True cd cu).
Local Notation cstep := (@cstep R T cd cu).
Local Notation kstep := (@kstep R T cd cu).

Lemma keeps (P : bsys -> Prop) : (forall s t, P s -> bstep s t -> P t) -> forall s t, rtc bstep s t -> P s -> P t.
Proof. intros H s t ST. induction ST; eauto. Qed.

Lemma fin_hosts (r : R) (rs : list T) j p d u : b_hosts (finished r rs) !! j = Some (p, d, u) -> ended p /\ d = [] /\ u = [].
Proof. intros L. apply elem_of_list_lookup_2, elem_of_list_fmap in L as (x & [= -> -> ->] & _). split; [exact I|split; reflexivity]. Qed.
Lemma body_body I' R' i n got (k : bytes -> bprog I' R') : body i (S n - length (@nil Z)) (got ++ []) k = BBody i n got k.
Proof. cbn. now rewrite app_nil_r. Qed.

(** *** Nobody is killed *)
Ltac inv_b H := inversion H; subst; cbn [b_guest b_hosts] in *.
Ltac same := match goal with H : ?l !! ?i = Some ?x, H' : ?l !! ?i = Some ?y |- _ => rewrite H in H'; first [discriminate H'|injection H' as ?; subst] end.
Ltac ends := cbn [ended] in *; try done.

(** Reads from a partner that has ended. *)
Lemma head_blocked i k p u (s t : bsys) : length u < 16 -> ended p -> rtc bstep s t -> b_guest s = BHead i k /\ (exists d, b_hosts s !! i = Some (p, d, u)) -> b_guest t = BHead i k.
Proof.
  intros LU EP ST H. eapply (keeps (fun s => b_guest s = BHead i k /\ (exists d, b_hosts s !! i = Some (p, d, u)))); [|exact ST|exact H].
  clear -LU EP. intros s t [G [d L]] ST. inv_b ST; try discriminate.
  - injection G as -> ->. same. match goal with H : _ -> length _ = 16 |- _ => specialize (H I) end. rewrite app_length in LU. lia.
  - split; [exact G|]. destruct (decide (i = j)) as [->|ne]; [same; ends|]. exists d. rewrite list_lookup_insert_ne by done. exact L.
  - split; [exact G|]. destruct (decide (i = j)) as [->|ne]; [same; ends|]. exists d. rewrite list_lookup_insert_ne by done. exact L.
  - split; [exact G|]. destruct (decide (i = j)) as [->|ne]; [same; ends|]. exists d. rewrite list_lookup_insert_ne by done. exact L.
Qed.
Lemma body_blocked i n got k p (s t : bsys) : ended p -> rtc bstep s t -> b_guest s = BBody i n got k /\ (exists d, b_hosts s !! i = Some (p, d, [])) -> b_guest t = BBody i n got k.
Proof.
  intros EP ST H. eapply (keeps (fun s => b_guest s = BBody i n got k /\ (exists d, b_hosts s !! i = Some (p, d, [])))); [|exact ST|exact H].
  clear -EP. intros s t [G [d L]] ST. inv_b ST; try discriminate.
  - injection G as -> -> -> ->. rewrite L in H. injection H as -> -> E. destruct c; [cbn in *; lia|discriminate].
  - split; [exact G|]. destruct (decide (i = j)) as [->|ne]; [same; ends|]. exists d. rewrite list_lookup_insert_ne by done. exact L.
  - split; [exact G|]. destruct (decide (i = j)) as [->|ne]; [same; ends|]. exists d. rewrite list_lookup_insert_ne by done. exact L.
  - split; [exact G|]. destruct (decide (i = j)) as [->|ne]; [same; ends|]. exists d. rewrite list_lookup_insert_ne by done. exact L.
Qed.
(** What is written to a partner that has ended stays. *)
Lemma write_stays i p (s t : bsys) : ended p -> rtc bstep s t -> (exists d u, b_hosts s !! i = Some (p, d, u) /\ ((exists b w k, b_guest s = BWrite i b w k) \/ d <> [])) ->
  (exists d u, b_hosts t !! i = Some (p, d, u) /\ ((exists b w k, b_guest t = BWrite i b w k) \/ d <> [])).
Proof.
  intros EP ST. apply (keeps (fun s => exists d u, b_hosts s !! i = Some (p, d, u) /\ ((exists b w k, b_guest s = BWrite i b w k) \/ d <> []))); [|exact ST].
  clear -EP. intros s t (d & u & L & G) ST. inv_b ST.
  - destruct (decide (i = i0)) as [->|ne].
    + same. eexists _, _. split; [eapply ins; eassumption|]. right. intros E. apply app_nil in E as [_ E]. discriminate E.
    + rewrite list_lookup_insert_ne by done. exists d, u. split; [exact L|]. destruct G as [(? & ? & ? & [=])|G]; [congruence|now right].
  - destruct G as [(? & ? & ? & [=])|G]. destruct (decide (i = i0)) as [->|ne].
    + same. eexists _, _. split; [eapply ins; eassumption|]. now right.
    + rewrite list_lookup_insert_ne by done. exists d, u. split; [exact L|now right].
  - destruct G as [(? & ? & ? & [=])|G]. destruct (decide (i = i0)) as [->|ne].
    + same. eexists _, _. split; [eapply ins; eassumption|]. now right.
    + rewrite list_lookup_insert_ne by done. exists d, u. split; [exact L|now right].
  - destruct (decide (i = j)) as [->|ne]; [same; ends|]. rewrite list_lookup_insert_ne by done. eauto.
  - destruct (decide (i = j)) as [->|ne]; [same; ends|]. rewrite list_lookup_insert_ne by done. eauto.
  - destruct (decide (i = j)) as [->|ne]; [same; ends|]. rewrite list_lookup_insert_ne by done. eauto.
Qed.
(** The same for hosts, when the guest has ended. *)
Lemma hhead_blocked j g k d u (s t : bsys) : length d < 16 -> ended g -> rtc bstep s t -> b_guest s = g /\ b_hosts s !! j = Some (BHead tt k, d, u) -> b_hosts t !! j = Some (BHead tt k, d, u).
Proof.
  intros LU EP ST H. eapply (keeps (fun s => b_guest s = g /\ b_hosts s !! j = Some (BHead tt k, d, u))); [|exact ST|exact H].
  clear -LU EP. intros s t [G L] ST. inv_b ST; ends; (split; [reflexivity|]); (destruct (decide (j = j0)) as [->|ne]; [|rewrite list_lookup_insert_ne by done; exact L]).
  - same. - same. match goal with H : _ -> length _ = 16 |- _ => specialize (H I) end. rewrite app_length in LU. lia. - same.
Qed.
Lemma hbody_blocked j g n got k u (s t : bsys) : ended g -> rtc bstep s t -> b_guest s = g /\ b_hosts s !! j = Some (BBody tt n got k, [], u) -> b_hosts t !! j = Some (BBody tt n got k, [], u).
Proof.
  intros EP ST H. eapply (keeps (fun s => b_guest s = g /\ b_hosts s !! j = Some (BBody tt n got k, [], u))); [|exact ST|exact H].
  clear -EP. intros s t [G L] ST. inv_b ST; ends; (split; [reflexivity|]); (destruct (decide (j = j0)) as [->|ne]; [|rewrite list_lookup_insert_ne by done; exact L]).
  - same. - same. - rewrite L in H. injection H as -> -> -> E ->. destruct c; [cbn in *; lia|discriminate].
Qed.
Lemma hwrite_stays j g (s t : bsys) : ended g -> rtc bstep s t -> (b_guest s = g /\ exists p d u, b_hosts s !! j = Some (p, d, u) /\ ((exists b w k, p = BWrite tt b w k) \/ u <> [])) ->
  (b_guest t = g /\ exists p d u, b_hosts t !! j = Some (p, d, u) /\ ((exists b w k, p = BWrite tt b w k) \/ u <> [])).
Proof.
  intros EP ST. apply (keeps (fun s => b_guest s = g /\ exists p d u, b_hosts s !! j = Some (p, d, u) /\ ((exists b w k, p = BWrite tt b w k) \/ u <> []))); [|exact ST].
  clear -EP. intros s t (G & p & d & u & L & W) ST. inv_b ST; ends; (split; [reflexivity|]); (destruct (decide (j = j0)) as [->|ne]; [same|rewrite list_lookup_insert_ne by done; eauto 6]);
    eexists _, _, _; (split; [eapply ins; eassumption|]); right.
  - intros E. apply app_nil in E as [_ E]. discriminate E. - destruct W as [(? & ? & ? & [=])|W]; exact W. - destruct W as [(? & ? & ? & [=])|W]; exact W.
Qed.

Lemma no_close s r rs : rtc bstep s (finished r rs) -> (forall t, cstep s t -> bstep s t) /\ ~ (exists t, empty_read s t).
Proof.
  intros F. split.
  - intros t ST. inversion ST; subst.
    + assumption.
    + exfalso. pose proof (head_blocked i k p u _ _ H1 H0 F ltac:(eauto)) as X. discriminate X.
    + exfalso. destruct (write_stays i p _ _ H0 F ltac:(eauto 8)) as (d' & u' & L & [(? & ? & ? & [=])|D]). apply fin_hosts in L as (_ & -> & _). now apply D.
    + exfalso. destruct (write_stays i p _ _ H0 F ltac:(eauto 8)) as (d' & u' & L & [(? & ? & ? & [=])|D]). apply fin_hosts in L as (_ & -> & _). now apply D.
    + exfalso. destruct (write_stays i p _ _ H0 F ltac:(eauto 8)) as (d' & u' & L & [(? & ? & ? & [=])|D]). apply fin_hosts in L as (_ & -> & _). now apply D.
    + exfalso. pose proof (hhead_blocked j g k d u _ _ H1 H0 F (conj eq_refl H)) as X. apply fin_hosts in X as [[] _].
    + exfalso. destruct (hwrite_stays j g _ _ H0 F) as (_ & p & d' & u' & L & W); [split; [reflexivity|]; eauto 9|]. apply fin_hosts in L as (E & _ & ->). destruct W as [(? & ? & ? & ->)|W]; [exact E|now apply W].
    + exfalso. destruct (hwrite_stays j g _ _ H0 F) as (_ & p & d' & u' & L & W); [split; [reflexivity|]; eauto 9|]. apply fin_hosts in L as (E & _ & ->). destruct W as [(? & ? & ? & ->)|W]; [exact E|now apply W].
    + exfalso. destruct (hwrite_stays j g _ _ H0 F) as (_ & p & d' & u' & L & W); [split; [reflexivity|]; eauto 9|]. apply fin_hosts in L as (E & _ & ->). destruct W as [(? & ? & ? & ->)|W]; [exact E|now apply W].
  - intros [t ST]. inversion ST; subst.
    + pose proof (body_blocked i n got k p _ _ H0 F ltac:(eauto)) as X. discriminate X.
    + pose proof (hbody_blocked j g n got k u _ _ H0 F (conj eq_refl H)) as X. apply fin_hosts in X as [[] _].
Qed.

(** *** All schedules are finite *)
Definition after {I' R'} (q p : bprog I' R') : Prop :=
  match p with
  | BWrite i b w k => exists c w', w = c ++ w' /\ q = write i w' k
  | BHead i k => exists c, q = k c
  | BBody i n got k => exists c, 1 <= length c <= S n /\ q = body i (S n - length c) (got ++ c) k
  | _ => False
  end \/ ~ ended p /\ exists e, q = BFail e.
Lemma acc_fail {I' R'} e : Acc (@after I' R') (BFail e).
Proof. constructor. intros q [[]|[NE _]]. now destruct NE. Qed.
Lemma acc_after {I' R'} (p : bprog I' R') : Acc after p.
Proof.
  induction p as [r|e|i b w k IH|i k IH|i n got k IH].
  - constructor. intros q [[]|[NE _]]. now destruct NE.
  - apply acc_fail.
  - remember (length w) as m eqn:E. revert b w E. induction m as [m IHm] using lt_wf_ind. intros b w E. constructor. intros q [(c & w' & -> & ->)|[_ [e ->]]]; [|apply acc_fail].
    rewrite app_length in E. destruct w' as [|b' w']; [exact IH|]. eapply IHm; [|reflexivity]. cbn in E. lia.
  - constructor. intros q [[c ->]|[_ [e ->]]]; [apply IH|apply acc_fail].
  - revert got. induction n as [n IHn] using lt_wf_ind. intros got. constructor. intros q [(c & L & ->)|[_ [e ->]]]; [|apply acc_fail].
    destruct (S n - length c) as [|m] eqn:E; [apply IH|]. apply IHn. lia.
Qed.
Definition one_after {A} (rel : A -> A -> Prop) (l' l : list A) : Prop := exists j p q, l !! j = Some p /\ rel q p /\ l' = <[j := q]> l.
Lemma acc_cons {A} (rel : A -> A -> Prop) x : Acc rel x -> forall l, Acc (one_after rel) l -> Acc (one_after rel) (x :: l).
Proof.
  induction 1 as [x _ IHx]. induction 1 as [l Hl IHl]. constructor. intros l' (j & p & q & L & Q & ->). destruct j as [|j]; cbn in L |- *.
  - injection L as ->. apply IHx; [exact Q|]. now constructor.
  - apply IHl. now exists j, p, q.
Qed.
Lemma acc_all {A} (rel : A -> A -> Prop) l : Forall (Acc rel) l -> Acc (one_after rel) l.
Proof. induction 1; [|now apply acc_cons]. constructor. intros l' (j & p & q & L & _). apply lookup_lt_Some in L. cbn in L. lia. Qed.
Definition sys_after (y x : bprog nat R * list (bprog unit T)) : Prop := (after y.1 x.1 /\ y.2 = x.2) \/ (y.1 = x.1 /\ one_after after y.2 x.2).
Lemma acc_sys x : Acc sys_after x.
Proof.
  destruct x as [g l]. assert (AG := acc_after g). assert (AL : Acc (one_after after) l) by (apply acc_all, Forall_forall; intros; apply acc_after).
  revert l AL. induction AG as [g _ IHg]. induction 1 as [l Hl IHl]. constructor. intros [g' l'] [[A E]|[E A]]; cbn in A, E; subst; [|now apply IHl]. apply IHg; [exact A|]. now constructor.
Qed.
Definition progs (s : bsys) : bprog nat R * list (bprog unit T) := (b_guest s, map (fun h => h.1.1) (b_hosts s)).
Lemma progs_insert j p d u p' d' u' (hs : list (bprog unit T * bytes * bytes)) : hs !! j = Some (p, d, u) -> map (fun h => h.1.1) (<[j := (p', d', u')]> hs) = <[j := p']> (map (fun h => h.1.1) hs).
Proof. intros _. exact (list_fmap_insert (fun h : bprog unit T * bytes * bytes => h.1.1) hs j (p', d', u')). Qed.
Lemma progs_same j p d u d' u' (hs : list (bprog unit T * bytes * bytes)) : hs !! j = Some (p, d, u) -> map (fun h => h.1.1) (<[j := (p, d', u')]> hs) = map (fun h => h.1.1) hs.
Proof. intros L. rewrite (progs_insert _ _ _ _ _ _ _ _ L). apply list_insert_id. change (map (fun h => h.1.1) hs) with ((fun h : bprog unit T * bytes * bytes => h.1.1) <$> hs). rewrite list_lookup_fmap, L. reflexivity. Qed.
Lemma progs_look j p d u (hs : list (bprog unit T * bytes * bytes)) : hs !! j = Some (p, d, u) -> map (fun h => h.1.1) hs !! j = Some p.
Proof. intros L. change (map (fun h => h.1.1) hs) with ((fun h : bprog unit T * bytes * bytes => h.1.1) <$> hs). rewrite list_lookup_fmap, L. reflexivity. Qed.

Lemma kstep_after s t : kstep s t -> sys_after (progs t) (progs s).
Proof.
  assert (HH : forall g j p d u q d' u' (hs : list (bprog unit T * bytes * bytes)), hs !! j = Some (p, d, u) -> after q p -> sys_after (progs (BSys g (<[j := (q, d', u')]> hs))) (progs (BSys g hs))).
  { intros g j p d u q d' u' hs L A. right. split; [reflexivity|]. exists j, p, q. split; [eapply progs_look, L|]. split; [exact A|]. eapply progs_insert, L. }
  assert (GG : forall g q j p d u d' u' (hs : list (bprog unit T * bytes * bytes)), hs !! j = Some (p, d, u) -> after q g -> sys_after (progs (BSys q (<[j := (p, d', u')]> hs))) (progs (BSys g hs))).
  { intros g q j p d u d' u' hs L A. left. split; [exact A|]. eapply progs_same, L. }
  assert (GF : forall g e (hs : list (bprog unit T * bytes * bytes)), ~ ended g -> sys_after (progs (BSys (BFail e) hs)) (progs (BSys g hs))).
  { intros g e hs NE. left. split; [right; eauto|reflexivity]. }
  intros [ST|ST].
  - inversion ST as [? ? B| | | | | | | |]; subst; try (apply GF; intros []); try (eapply HH; [eassumption|right; split; [intros []|eexists; reflexivity]]; fail).
    + inversion B; subst; (eapply HH + eapply GG); try eassumption; left; cbn [after]; eauto.
    + eapply GG; [eassumption|left; cbn; eauto].
    + eapply HH; [eassumption|left; cbn; eauto].
  - inversion ST; subst; [now apply GF|]. eapply HH; [eassumption|right; eauto].
Qed.
Lemma acc_kstep s : Acc (fun t s => kstep s t) s.
Proof.
  remember (progs s) as x eqn:E. assert (A := acc_sys x). revert s E. induction A as [x _ IH]. intros s ->. constructor. intros t ST. eapply IH; [|reflexivity]. now apply kstep_after.
Qed.

(** *** Some parties die *)
(** The guest's program does nothing but raise or read on when a header is cut off. *)
Fixpoint wired {I' R'} (p : bprog I' R') : Prop :=
  match p with
  | BRet _ | BFail _ => True
  | BWrite i b w k => wired k
  | BHead i k => forall c, ((exists e, k c = BFail e) \/ exists n got k', k c = BBody i n got k') /\ wired (k c)
  | BBody i n got k => forall c, wired (k c)
  end.
Lemma wired_write {I' R'} (i : I') w (k : bprog I' R') : wired k -> wired (write i w k).
Proof. destruct w; exact (fun H => H). Qed.
Lemma wired_body {I' R'} (i : I') n got (k : bytes -> bprog I' R') : (forall c, wired (k c)) -> wired (body i n got k).
Proof. intros H. destruct n; [apply H|exact H]. Qed.
Lemma wired_step (s t : bsys) : bstep s t -> wired (b_guest s) -> wired (b_guest t).
Proof.
  intros ST W. inv_b ST; try exact W.
  - now apply wired_write.
  - apply W.
  - now apply wired_body.
Qed.

(** The same state but for hosts that are dead in [a] *)
Definition lost (x y : bprog unit T * bytes * bytes) : Prop := x.1.2 = y.1.2 /\ x.2 = y.2 /\ (x.1.1 = y.1.1 \/ ended x.1.1).
Definition shadow (a t : bsys) : Prop := b_guest a = b_guest t /\ Forall2 lost (b_hosts a) (b_hosts t).
Lemma lost_refl x : lost x x. Proof. split; [reflexivity|split; [reflexivity|now left]]. Qed.
Lemma shadow_look a t i p d u : shadow a t -> b_hosts a !! i = Some (p, d, u) -> exists q, b_hosts t !! i = Some (q, d, u) /\ (p = q \/ ended p).
Proof. intros [_ F] L. destruct (Forall2_lookup_l _ _ _ _ _ F L) as ([[q d'] u'] & L' & E1 & E2 & E3). cbn in *. subst. eauto. Qed.
Lemma shadow_insert (hs ht : list (bprog unit T * bytes * bytes)) i x y : Forall2 lost hs ht -> lost x y -> Forall2 lost (<[i := x]> hs) (<[i := y]> ht).
Proof. intros F L. now apply Forall2_insert. Qed.
Lemma shadow_step a a' t : shadow a t -> bstep a a' -> exists t', bstep t t' /\ shadow a' t'.
Proof.
  intros SH ST. pose proof (proj1 SH) as G. pose proof (proj2 SH) as F. destruct t as [g ht]. inv_b ST; cbn in G; subst.
  - destruct (shadow_look _ _ _ _ _ _ SH H) as (q & L & E). eexists. split; [eapply b_gwrite; eauto|]. split; [reflexivity|]. apply shadow_insert; [exact F|]. split; [reflexivity|split; [reflexivity|exact E]].
  - destruct (shadow_look _ _ _ _ _ _ SH H) as (q & L & E). eexists. split; [eapply b_ghead; eauto|]. split; [reflexivity|]. apply shadow_insert; [exact F|]. split; [reflexivity|split; [reflexivity|exact E]].
  - destruct (shadow_look _ _ _ _ _ _ SH H) as (q & L & E). eexists. split; [eapply b_gbody; eauto|]. split; [reflexivity|]. apply shadow_insert; [exact F|]. split; [reflexivity|split; [reflexivity|exact E]].
  - destruct (shadow_look _ _ _ _ _ _ SH H) as (q & L & [<-|[]]). eexists. split; [eapply b_hwrite; eauto|]. split; [reflexivity|]. apply shadow_insert; [exact F|apply lost_refl].
  - destruct (shadow_look _ _ _ _ _ _ SH H) as (q & L & [<-|[]]). eexists. split; [eapply b_hhead; eauto|]. split; [reflexivity|]. apply shadow_insert; [exact F|apply lost_refl].
  - destruct (shadow_look _ _ _ _ _ _ SH H) as (q & L & [<-|[]]). eexists. split; [eapply b_hbody; eauto|]. split; [reflexivity|]. apply shadow_insert; [exact F|apply lost_refl].
Qed.

Section Dead.
Context (s0 : bsys).
Definition halted (g : bprog nat R) : Prop := ended g /\ forall r, g = BRet r -> exists t, rtc bstep s0 t /\ b_guest t = BRet r.
Lemma halted_fail e : halted (BFail e). Proof. split; [exact I|discriminate]. Qed.
Definition inv (a : bsys) : Prop := (exists t, rtc bstep s0 t /\ shadow a t /\ wired (b_guest t)) \/ halted (b_guest a) \/ guest_spins a.
Lemma inv_step a b : inv a -> kstep a b -> inv b.
Proof.
  intros [(t & RT & SH & W)|[E|SP]] K.
  - pose proof (proj1 SH) as G. pose proof (proj2 SH) as F. destruct K as [ST|ST]; inversion ST; subst; cbn [b_guest b_hosts] in *.
    + destruct (shadow_step _ _ _ SH H) as (t' & ST' & SH'). left. exists t'. split; [eapply rtc_r; eassumption|]. split; [exact SH'|]. eapply wired_step; eassumption.
    + rewrite <- G in W. cbn in W. destruct (W u) as [[[e E]|(n & got & k' & E)] _]; right; [left; rewrite E; apply halted_fail|]. right. exists i, n, got, k', p, d. cbn. split; [exact E|]. split; [eapply ins; eassumption|assumption].
    + right. left. apply halted_fail. + right. left. apply halted_fail. + right. left. apply halted_fail.
    + right. left. split; [assumption|]. cbn. intros r ->. eauto. + right. left. split; [assumption|]. cbn. intros r ->. eauto. + right. left. split; [assumption|]. cbn. intros r ->. eauto. + right. left. split; [assumption|]. cbn. intros r ->. eauto.
    + right. left. apply halted_fail.
    + left. exists t. split; [exact RT|]. split; [|exact W]. split; [exact G|]. cbn. destruct (shadow_look _ _ _ _ _ _ SH H) as (q & L & E). rewrite <- (list_insert_id _ _ _ L). apply shadow_insert; [exact F|].
      split; [reflexivity|]. split; [reflexivity|]. right. exact I.
  - right. left. destruct K as [ST|ST]; [inversion ST as [? ? B| | | | | | | |]|inversion ST]; subst; cbn [b_guest b_hosts] in *; try exact E; try (destruct E as [E _]; ends; fail). inv_b B; try exact E; destruct E as [E _]; ends.
  - destruct a as [g hs]. destruct SP as (i & n & got & k & p & d & G & L & E). cbn in G, L. subst g.
    assert (KEEP : forall j x y, hs !! j = Some x -> ~ ended x.1.1 -> inv (BSys (BBody i n got k) (<[j := y]> hs))).
    { intros j x y X NE. right. right. exists i, n, got, k, p, d. split; [reflexivity|]. split; [|exact E]. cbn. destruct (decide (i = j)) as [->|ne]; [|rewrite list_lookup_insert_ne by done; exact L].
      exfalso. rewrite L in X. injection X as <-. exact (NE E). }
    destruct K as [ST|ST]; [inversion ST as [? ? B| | | | | | | |]|inversion ST]; subst; cbn [b_guest b_hosts] in *; ends; try (right; left; apply halted_fail); try (eapply KEEP; [eassumption|assumption || intros []]; fail).
    inv_b B; ends; try (eapply KEEP; [eassumption|intros []]; fail). exfalso. match goal with Y : _ !! _ = Some (_, _, _ ++ _) |- _ => rewrite L in Y; injection Y as -> -> X end. destruct c; [cbn in *; lia|discriminate].
Qed.
Lemma inv_steps a b : rtc kstep a b -> inv a -> inv b.
Proof. induction 1; eauto using inv_step. Qed.

(** Blocked parties of the shadow stay blocked. *)
Lemma never_stuck r rs a t : rtc bstep t (finished r rs) -> shadow a t -> nf cstep a -> ended (b_guest a) \/ guest_spins a.
Proof.
  intros FIN SH NF. destruct a as [g hs]. pose proof (proj1 SH) as G. cbn in G.
  assert (CASES : ended g \/ guest_spins (BSys g hs) \/ ~ ended g /\ forall i p d u, hs !! i = Some (p, d, u) -> ended p -> match g with BWrite i' _ _ _ | BHead i' _ | BBody i' _ _ _ => i' <> i | _ => True end).
  { destruct g as [r'|e|i b w k|i k|i n got k]; [now left|now left| | |]; right.
    - right. split; [intros []|]. intros i' p d u L E ->. apply NF. eexists. eapply (c_gwrite _ _ _ _ _ _ ValueError); eassumption.
    - right. split; [intros []|]. intros i' p d u L E ->. apply NF. destruct (decide (length u < 16)) as [LT|GE]; [eexists; eapply c_ghead; eassumption|].
      eexists. apply c_step. rewrite <- (take_drop 16 u) in L. eapply b_ghead; [exact L| |intros _]; rewrite take_length; lia.
    - destruct (hs !! i) as [[[p d] u]|] eqn:L; [destruct (decide (u = [])) as [->|NE]|].
      + destruct p as [x|x|? ? ? ?|? ?|? ? ? ?]; [left; exists i, n, got, k, (BRet x), d; repeat split; exact L|left; exists i, n, got, k, (BFail x), d; repeat split; exact L| | |]; right; (split; [intros []|]); intros i' p' d' u' L' E' ->; rewrite L in L'; injection L' as <- <- <-; destruct E'.
      + exfalso. apply NF. destruct u as [|b u]; [done|]. eexists. apply c_step. eapply (b_gbody True cd cu i n got k [b]); [exact L|cbn; lia].
      + right. split; [intros []|]. intros i' p' d' u' L' _ ->. congruence. }
  destruct CASES as [?|[?|[NE CASES]]]; [now left|now right|]. exfalso.
  assert (INV : b_guest (finished r rs : bsys) = g /\ forall i p d u, hs !! i = Some (p, d, u) -> ~ ended p -> b_hosts (finished r rs : bsys) !! i = Some (p, d, u)).
  2: { destruct INV as [E _]. apply NE. rewrite <- E. exact I. }
  assert (LEN : length hs = length (b_hosts t)) by exact (Forall2_length _ _ _ (proj2 SH)).
  enough (X : b_guest (finished r rs : bsys) = g /\ length hs = length (b_hosts (finished r rs : bsys)) /\ forall i p d u, hs !! i = Some (p, d, u) -> ~ ended p -> b_hosts (finished r rs : bsys) !! i = Some (p, d, u)) by (destruct X as (X1 & _ & X2); split; [exact X1|exact X2]).
  revert FIN. generalize (finished r rs : bsys). intros f FIN.
  eapply (keeps (fun f => b_guest f = g /\ length hs = length (b_hosts f) /\ forall i p d u, hs !! i = Some (p, d, u) -> ~ ended p -> b_hosts f !! i = Some (p, d, u))); [|exact FIN|].
  2: { split; [now rewrite G|]. split; [exact LEN|]. intros i p d u L NP. destruct (shadow_look _ _ _ _ _ _ SH L) as (q & L' & [->|E]); [exact L'|]. now destruct NP. }
  clear f FIN t SH G LEN. intros s t (G & LEN & H) ST. destruct s as [g' hs']. cbn in G, LEN, H. subst g'.
  assert (SEE : forall i p d u, hs' !! i = Some (p, d, u) -> (forall q d u, hs !! i = Some (q, d, u) -> ~ ended q) -> hs !! i = Some (p, d, u)).
  { intros i p d u L NQ. destruct (hs !! i) as [[[q d'] u']|] eqn:X; [|apply lookup_ge_None in X; apply lookup_lt_Some in L; lia]. rewrite (H _ _ _ _ X (NQ _ _ _ eq_refl)) in L. now injection L as -> -> ->. }
  assert (HOST : forall j p d u x, hs' !! j = Some (p, d, u) -> (hs !! j = Some (p, d, u) -> False) -> b_guest (BSys g (<[j := x]> hs')) = g /\ length hs = length (b_hosts (BSys g (<[j := x]> hs'))) /\ forall i p d u, hs !! i = Some (p, d, u) -> ~ ended p -> b_hosts (BSys g (<[j := x]> hs')) !! i = Some (p, d, u)).
  { intros j p d u x L NO. cbn. split; [reflexivity|]. split; [now rewrite insert_length|]. intros i p' d' u' L' NP. destruct (decide (i = j)) as [->|ne]; [|rewrite list_lookup_insert_ne by done; eauto].
    exfalso. apply NO. apply SEE; [exact L|]. intros q d2 u2 Y. rewrite L' in Y. now injection Y as <- _ _. }
  inversion ST; subst.
  - exfalso. apply NF. eexists. apply c_step. eapply b_gwrite; [|reflexivity|]; [|eassumption]. eapply SEE; [eassumption|]. intros q d' u' L' E. exact (CASES _ _ _ _ L' E eq_refl).
  - exfalso. apply NF. eexists. apply c_step. eapply b_ghead; [|eassumption|eassumption]. eapply SEE; [eassumption|]. intros q d' u' L' E. exact (CASES _ _ _ _ L' E eq_refl).
  - exfalso. apply NF. eexists. apply c_step. eapply b_gbody; [|eassumption]. eapply SEE; [eassumption|]. intros q d' u' L' E. exact (CASES _ _ _ _ L' E eq_refl).
  - eapply HOST; [eassumption|]. intros L. apply NF. eexists. apply c_step. eapply b_hwrite; eauto.
  - eapply HOST; [eassumption|]. intros L. apply NF. eexists. apply c_step. eapply b_hhead; eauto.
  - eapply HOST; [eassumption|]. intros L. apply NF. eexists. apply c_step. eapply b_hbody; eauto.
Qed.
(** When the guest has ended, all hosts can go on until they end or spin. *)
Lemma hosts_end (a : bsys) : ended (b_guest a) -> nf cstep a -> forall j p d u, b_hosts a !! j = Some (p, d, u) -> ended p \/ host_spins a j.
Proof.
  intros E NF j p d u L. destruct a as [g hs]. cbn in E, L. destruct p as [x|x|[] b w k|[] k|[] n got k]; [now left|now left| | |].
  - exfalso. apply NF. eexists. eapply (c_hwrite _ _ _ _ _ _ _ ValueError); eassumption.
  - exfalso. apply NF. destruct (decide (length d < 16)) as [LT|GE]; [eexists; eapply c_hhead; eassumption|].
    eexists. apply c_step. rewrite <- (take_drop 16 d) in L. eapply b_hhead; [exact L| |intros _]; rewrite take_length; lia.
  - destruct d as [|b d]; [right; split; [exact E|]; eauto 6|]. exfalso. apply NF. eexists. apply c_step. eapply (b_hbody True cd cu g j n got k [b]); [exact L|cbn; lia].
Qed.
Lemma dead_over r rs a : (forall t, rtc bstep s0 t -> rtc bstep t (finished r rs)) -> wired (b_guest s0) -> rtc kstep s0 a -> nf cstep a -> over a.
Proof.
  intros FIN W ST NF. assert (I0 : inv s0). { left. exists s0. split; [constructor|]. split; [|exact W]. split; [reflexivity|]. apply Forall_Forall2_diag, Forall_forall. intros. apply lost_refl. }
  assert (X : ended (b_guest a) \/ guest_spins a). { destruct (inv_steps _ _ ST I0) as [(t & RT & SH & _)|[[X _]|X]]; [|now left|now right]. eapply never_stuck; [exact (FIN t RT)|exact SH|exact NF]. }
  destruct X as [E|S]; [right; split; [exact E|]; now apply hosts_end|now left].
Qed.
Lemma guest_stays r rs r' (t : bsys) : rtc bstep t (finished r rs) -> b_guest t = BRet r' -> r' = r.
Proof.
  intros FIN G. assert (X : b_guest (finished r rs : bsys) = BRet r'). { eapply (keeps (fun t => b_guest t = BRet r')); [|exact FIN|exact G]. clear. intros s t G ST. inv_b ST; try discriminate; exact G. }
  now injection X as ->.
Qed.
Lemma dead_right r rs a r' : (forall t, rtc bstep s0 t -> rtc bstep t (finished r rs)) -> wired (b_guest s0) -> rtc kstep s0 a -> b_guest a = BRet r' -> r' = r.
Proof.
  intros FIN W ST G. assert (I0 : inv s0). { left. exists s0. split; [constructor|]. split; [|exact W]. split; [reflexivity|]. apply Forall_Forall2_diag, Forall_forall. intros. apply lost_refl. }
  destruct (inv_steps _ _ ST I0) as [(t & RT & [GT _] & _)|[[_ X]|(i & n & got & k & p & d & E & _)]]; [|destruct (X _ G) as (t & RT & GT)|congruence]; eapply guest_stays; eauto. congruence.
Qed.
End Dead.
End Close.

Section Wire.
Context {M R T : Type} (ser : M -> bytes) (des : bytes -> res M) (cd cu : nat -> nat).
Lemma wired_wire {I'} (e : exn) (p : proc I' M R) : des [] = Err e -> wired (wire ser des p).
Proof.
  intros D. induction p as [r|x|i m k IH|i k IH]; cbn [wire wired]; [exact I|exact I|now apply wired_write, wired_write|]. intros c.
  destruct (parse_int (take 16 c)) as [len|]; [|split; [left; eauto|exact I]]. split.
  - destruct (Z.to_nat len); cbn [body]; [left; rewrite D; eauto|right; eauto].
  - apply wired_body. intros full. destruct (des full); [apply IH|exact I].
Qed.
Lemma ends_closing (s : sys M R T) r rs : socket_ends ser des cd cu s r rs -> closing_ends ser des cd cu s r rs.
Proof.
  intros [N H]. exists N.
  assert (X : forall q t, nsteps (cstep cd cu) q (on_sockets ser des s) t -> nsteps (bstep True cd cu) q (on_sockets ser des s) t).
  { intros q. induction q as [|q IH]; intros t ST; [inversion ST; subst; constructor|]. apply nsteps_inv_r in ST as (y & A & B). apply IH in A. destruct (H _ _ A) as [_ F]. eapply nsteps_r; [exact A|]. now apply (proj1 (no_close _ _ _ _ _ F)). }
  intros q t ST. destruct (H q t (X _ _ ST)) as [L F]. split; [exact L|]. split; [|apply (proj2 (no_close _ _ _ _ _ F))]. clear -F. induction F; [constructor|]. eapply rtc_l; [apply c_step; eassumption|assumption].
Qed.
Lemma ends_dies e (s : sys M R T) r rs : des [] = Err e -> socket_ends ser des cd cu s r rs -> dies_cleanly ser des cd cu s r.
Proof.
  intros D [N H]. split; [apply acc_kstep|]. intros a ST.
  assert (F : forall t, rtc (bstep True cd cu) (on_sockets ser des s) t -> rtc (bstep True cd cu) t (finished r rs)).
  2: { split; [intros NF; exact (dead_over cd cu _ r rs _ F (wired_wire e _ D) ST NF)|intros r' G; exact (dead_right cd cu _ r rs _ _ F (wired_wire e _ D) ST G)]. }
  intros t RT. apply rtc_nsteps in RT as [q RT]. exact (proj2 (H q t RT)).
Qed.
End Wire.
