(** Schedules do not matter: the step relation has the diamond property. Rules for running a protocol phase by phase. *)
From Verif Require Export ProcModel.
From stdpp Require Export relations.
Local Open Scope nat_scope.

Section Diamond.
Context {M R S : Type}.
Local Notation sys := (sys M R S).

Lemma step_eq (s t t' : sys) : step s t -> t = t' -> step s t'.
Proof. now intros ? <-. Qed.

Ltac lk := first [ rewrite list_lookup_insert by (eapply lookup_lt_Some; eassumption); reflexivity
                 | rewrite list_lookup_insert_ne by congruence; eassumption ].
Ltac fin := first [reflexivity | now rewrite !list_insert_insert | now rewrite list_insert_commute by congruence].

Lemma step_diamond (s t1 t2 : sys) : step s t1 -> step s t2 -> t1 = t2 \/ exists t, step t1 t /\ step t2 t.
Proof.
  intros H1 H2. destruct s as [g hs].
  inversion H1 as [i m k hs0 p d u L|i k hs0 p d m u L|g0 i m k hs0 d u L|g0 i k hs0 m d u L]; subst;
  inversion H2 as [j m' k' hs0 p' d' u' L'|j k' hs0 p' d' m' u' L'|g0 j m' k' hs0 d' u' L'|g0 j k' hs0 m' d' u' L']; subst;
  try (left; congruence); destruct (decide (i = j)) as [->|NE];
  try (rewrite L in L'; discriminate L');
  try (rewrite L in L'; injection L'; clear L'; intros; subst; try (left; reflexivity));
  right; eexists.
  - split; [eapply (step_hsend _ j); lk|]. eapply step_eq; [eapply step_gsend; lk|fin].
  - split; [eapply (step_hsend _ j); lk|]. eapply step_eq; [eapply step_gsend; lk|fin].
  - split; [eapply (step_hrecv _ j); lk|]. eapply step_eq; [eapply step_gsend; lk|fin].
  - split; [eapply (step_hrecv _ j); lk|]. eapply step_eq; [eapply step_gsend; lk|fin].
  - split; [eapply (step_hsend _ j); lk|]. eapply step_eq; [eapply step_grecv; lk|fin].
  - split; [eapply (step_hsend _ j); lk|]. eapply step_eq; [eapply step_grecv; lk|fin].
  - split; [eapply (step_hrecv _ j); lk|]. eapply step_eq; [eapply step_grecv; lk|fin].
  - split; [eapply (step_hrecv _ j); lk|]. eapply step_eq; [eapply step_grecv; lk|fin].
  - split; [eapply step_gsend; lk|]. eapply step_eq; [first [eapply (step_hsend _ i); lk | eapply (step_hsend _ j); lk]|fin].
  - split; [eapply step_gsend; lk|]. eapply step_eq; [first [eapply (step_hsend _ i); lk | eapply (step_hsend _ j); lk]|fin].
  - split; [eapply step_grecv; lk|]. eapply step_eq; [first [eapply (step_hsend _ i); lk | eapply (step_hsend _ j); lk]|fin].
  - split; [eapply step_grecv; lk|]. eapply step_eq; [first [eapply (step_hsend _ i); lk | eapply (step_hsend _ j); lk]|fin].
  - split; [eapply (step_hsend _ j); lk|]. eapply step_eq; [eapply (step_hsend _ i); lk|fin].
  - split; [eapply (step_hrecv _ j); lk|]. eapply step_eq; [eapply (step_hsend _ i); lk|fin].
  - split; [eapply step_gsend; lk|]. eapply step_eq; [first [eapply (step_hrecv _ i); lk | eapply (step_hrecv _ j); lk]|fin].
  - split; [eapply step_gsend; lk|]. eapply step_eq; [first [eapply (step_hrecv _ i); lk | eapply (step_hrecv _ j); lk]|fin].
  - split; [eapply step_grecv; lk|]. eapply step_eq; [first [eapply (step_hrecv _ i); lk | eapply (step_hrecv _ j); lk]|fin].
  - split; [eapply step_grecv; lk|]. eapply step_eq; [first [eapply (step_hrecv _ i); lk | eapply (step_hrecv _ j); lk]|fin].
  - split; [eapply (step_hsend _ j); lk|]. eapply step_eq; [eapply (step_hrecv _ i); lk|fin].
  - split; [eapply (step_hrecv _ j); lk|]. eapply step_eq; [eapply (step_hrecv _ i); lk|fin].
Qed.

Lemma outcome_step n : forall (s t s1 : sys), nsteps step n s t -> nf step t -> step s s1 -> exists n', n = Datatypes.S n' /\ nsteps step n' s1 t.
Proof.
  induction n as [|n IH]; intros s t s1 H NF H1.
  - inversion H; subst. destruct NF. now exists s1.
  - inversion H as [|? ? s0 ? H0 Hn]; subst. exists n. split; [reflexivity|].
    destruct (step_diamond _ _ _ H0 H1) as [->|(w & W0 & W1)]; [exact Hn|].
    destruct (IH _ _ _ Hn NF W0) as (n' & -> & Hw). econstructor; eauto.
Qed.

(** If one schedule runs to completion in [n] steps then every schedule does: any [m] steps can be completed by [n - m]
    further ones to the same final state. In particular no schedule deadlocks or runs forever. *)
Lemma outcome n (s t : sys) : nsteps step n s t -> nf step t -> forall m s', nsteps step m s s' -> m <= n /\ nsteps step (n - m) s' t.
Proof.
  intros H NF m. revert n s H. induction m as [|m IH]; intros n s H s' H'.
  - inversion H'; subst. rewrite Nat.sub_0_r. split; [lia|exact H].
  - inversion H' as [|? ? s1 ? H1 Hm]; subst. destruct (outcome_step n s t s1 H NF H1) as (n' & -> & Hn).
    destruct (IH n' s1 Hn s' Hm) as [A B]. split; [lia|exact B].
Qed.

(** All parties have returned and nothing is in flight. *)
Definition done (r : R) (rs : list S) : sys := Sys (Ret r) (map (fun x => (Ret x, [], [])) rs).
Lemma done_nf r rs : nf step (done r rs).
Proof.
  assert (X : forall i p d u, map (fun x : S => (@Ret unit M S x, @nil M, @nil M)) rs !! i = Some (p, d, u) -> exists x, p = Ret x /\ d = [] /\ u = []).
  { intros i p d u H. apply elem_of_list_lookup_2 in H.
    apply elem_of_list_fmap in H as (x & [= -> -> ->] & _). eauto. }
  intros [t H]. unfold done in H. inversion H as [| |g0 j m k hs0 d u L|g0 j k hs0 m d u L]; subst;
    destruct (X _ _ _ _ L) as (x & E & _); discriminate.
Qed.
End Diamond.

(** A message handed over directly: the sender sends and the receiver waits for it, with nothing else in flight between
    the two. What runs by such hand-overs needs no buffering (SocketProofs). *)
Inductive hand {M R S : Type} : sys M R S -> sys M R S -> Prop :=
| hand_down i m k f hs : hs !! i = Some (Recv tt f, [], []) -> hand (Sys (Send i m k) hs) (Sys k (<[i := (f m, [], [])]> hs))
| hand_up i m k f hs : hs !! i = Some (Send tt m k, [], []) -> hand (Sys (Recv i f) hs) (Sys (f m) (<[i := (k, [], [])]> hs)).

Lemma hand_steps {M R S} (s t : sys M R S) : hand s t -> rtc step s t.
Proof.
  intros H. inversion H as [i m k f hs L|i m k f hs L]; subst; pose proof (lookup_lt_Some _ _ _ L) as LT.
  - eapply rtc_l; [eapply step_gsend; exact L|]. eapply rtc_l; [eapply (step_hrecv _ i); cbn; now rewrite list_lookup_insert|].
    rewrite list_insert_insert. apply rtc_refl.
  - eapply rtc_l; [eapply (step_hsend _ i); exact L|]. eapply rtc_l; [eapply (step_grecv i); cbn; now rewrite list_lookup_insert|].
    rewrite list_insert_insert. apply rtc_refl.
Qed.
Lemma hands_steps {M R S} (s t : sys M R S) : rtc hand s t -> rtc step s t.
Proof. intros H. induction H as [|s u t H _ IH]; [apply rtc_refl|]. eapply rtc_transitive; [exact (hand_steps _ _ H)|exact IH]. Qed.

Section Runs.
Context {M R S : Type} (n : nat).
Context {A B : Type}.

(** The guest runs [gp] and host i runs [hp i] from empty channels; they end in [a] and [b i] with empty channels. *)
Definition sysof (g : proc nat M R) (h : nat -> proc unit M S) : sys M R S := Sys g (map (fun i => (h i, [], [])) (seq 0 n)).
Definition runs (gp : cps nat M R A) (hp : nat -> cps unit M S B) (a : A) (b : nat -> B) : Prop :=
  forall kg kh, rtc hand (sysof (gp kg) (fun i => hp i (kh i))) (sysof (kg a) (fun i => kh i (b i))).
End Runs.

Section Rules.
Context {M R S : Type} (n : nat).

Lemma sysof_ext (g : proc nat M R) (h h' : nat -> proc unit M S) : (forall i, i < n -> h i = h' i) -> sysof n g h = sysof n g h'.
Proof.
  intros H. unfold sysof. f_equal. apply map_ext_in. intros i Hi. apply in_seq in Hi. rewrite H by lia. reflexivity.
Qed.

Lemma runs_ext {A B} (gp gp' : cps nat M R A) (hp hp' : nat -> cps unit M S B) a b b' :
  (forall c, gp c = gp' c) -> (forall i c, i < n -> hp i c = hp' i c) -> (forall i, i < n -> b i = b' i) ->
  runs n gp' hp' a b' -> runs n gp hp a b.
Proof.
  intros H1 H2 H3 H kg kh. rewrite H1. rewrite (sysof_ext _ (fun i => hp i (kh i)) (fun i => hp' i (kh i))) by (intros; now apply H2).
  rewrite (sysof_ext (kg a) (fun i => kh i (b i)) (fun i => kh i (b' i))) by (intros i Hi; now rewrite H3). apply H.
Qed.

Lemma runs_ret {A B} (a : A) (b : nat -> B) : @runs M R S n A B (cret a) (fun i => cret (b i)) a b.
Proof. intros kg kh. apply rtc_refl. Qed.

Lemma runs_seq {A B A' B'} (g1 : cps nat M R A) (g2 : A -> cps nat M R A') (h1 : nat -> cps unit M S B) (h2 : nat -> B -> cps unit M S B') a b a' b' :
  runs n g1 h1 a b -> runs n (g2 a) (fun i => h2 i (b i)) a' b' -> runs n (cbind g1 g2) (fun i => cbind (h1 i) (h2 i)) a' b'.
Proof. intros H1 H2 kg kh. eapply rtc_transitive; [exact (H1 (fun x => g2 x kg) (fun i x => h2 i x (kh i)))|exact (H2 kg kh)]. Qed.

Lemma runs_glift {A B A'} (r : res A') x (g : A' -> cps nat M R A) (h : nat -> cps unit M S B) a b :
  r = Ok x -> runs n (g x) h a b -> runs n (cbind (clift r) g) h a b.
Proof. intros -> H. exact H. Qed.
Lemma runs_hlift {A B B'} (r : nat -> res B') x (g : cps nat M R A) (h : nat -> B' -> cps unit M S B) a b :
  (forall i, i < n -> r i = Ok (x i)) -> runs n g (fun i => h i (x i)) a b -> runs n g (fun i => cbind (clift (r i)) (h i)) a b.
Proof.
  intros E H. eapply runs_ext; [| | |exact H]; [reflexivity| |reflexivity]. intros i c Hi. unfold cbind, clift. now rewrite E.
Qed.

(** A host's state while the guest works through the hosts in order: host j is done, the others wait. *)
Lemma seq_lookup_sys (f : nat -> proc unit M S * list M * list M) i : i < n -> map f (seq 0 n) !! i = Some (f i).
Proof. intros H. etransitivity; [exact (list_lookup_fmap f (seq 0 n) i)|]. rewrite lookup_seq_lt by lia. reflexivity. Qed.
Lemma seq_insert_sys (f : nat -> proc unit M S * list M * list M) i x : i < n ->
  <[i := x]> (map f (seq 0 n)) = map (fun j => if decide (j = i) then x else f j) (seq 0 n).
Proof.
  intros H. apply list_eq. intros j. destruct (decide (j < n)) as [L|L].
  - destruct (decide (i = j)) as [->|NE].
    + rewrite list_lookup_insert by (rewrite map_length, seq_length; lia). rewrite seq_lookup_sys by lia. now rewrite decide_True.
    + rewrite list_lookup_insert_ne, !seq_lookup_sys by (lia || congruence). now rewrite decide_False by congruence.
  - rewrite !lookup_ge_None_2; [reflexivity|rewrite ?insert_length, map_length, seq_length; lia..].
Qed.

Lemma rtc_eq (s t t' : sys M R S) : t = t' -> rtc hand s t -> rtc hand s t'.
Proof. now intros ->. Qed.

(** The guest's loop over the hosts [i .. n-1], sending [m i] to each: hosts receive in turn. *)
Lemma scatter_from (f : nat -> res M) (m : nat -> M) (kh : nat -> M -> proc unit M S) (kg : unit -> proc nat M R) d : forall i,
  i + d = n -> (forall j, j < n -> f j = Ok (m j)) ->
  rtc hand (Sys (cfold (fun _ i => cbind (clift (f i)) (fun x => csend i x)) tt (seq i d) kg)
              (map (fun j => if decide (j < i) then (kh j (m j), [], []) else (Recv tt (kh j), [], [])) (seq 0 n)))
           (Sys (kg tt) (map (fun j => (kh j (m j), [], [])) (seq 0 n))).
Proof.
  induction d as [|d IH]; intros i E F.
  - cbn [seq cfold cret]. assert (i = n) as -> by lia. eapply rtc_eq; [|apply rtc_refl]. f_equal. apply map_ext_in. intros j Hj. apply in_seq in Hj. now rewrite decide_True by lia.
  - cbn [seq cfold]. unfold cbind at 1, cbind at 1, clift, csend. rewrite F by lia.
    eapply rtc_l; [eapply (hand_down i); rewrite seq_lookup_sys, decide_False by lia; reflexivity|].
    rewrite seq_insert_sys by lia. eapply rtc_transitive; [|apply (IH (Datatypes.S i)); [lia|exact F]].
    eapply rtc_eq; [|apply rtc_refl]. f_equal. apply map_ext_in. intros j Hj. apply in_seq in Hj.
    destruct (decide (j = i)) as [->|NE]; [now rewrite decide_True by lia|].
    destruct (decide (j < i)) as [L|L]; [now rewrite decide_True by lia|now rewrite decide_False by lia].
Qed.

Lemma runs_scatter (f : nat -> res M) (m : nat -> M) : (forall j, j < n -> f j = Ok (m j)) ->
  @runs M R S n unit M (cfold (fun _ i => cbind (clift (f i)) (fun x => csend i x)) tt (seq 0 n)) (fun _ => crecv tt) tt m.
Proof. intros F kg kh. unfold sysof. eapply rtc_transitive; [|apply (scatter_from f m kh kg n 0); [lia|exact F]]. apply rtc_refl. Qed.

Lemma runs_bcast m : @runs M R S n unit M (bcast n m) (fun _ => crecv tt) tt (fun _ => m).
Proof. exact (runs_scatter (fun _ => Ok m) (fun _ => m) (fun _ _ => eq_refl)). Qed.

Lemma gather_from (m : nat -> M) (kh : nat -> proc unit M S) (kg : list M -> proc nat M R) d : forall i, i + d = n ->
  rtc hand (Sys (cfold (fun acc i => cbind (crecv i) (fun x => cret (acc ++ [x]))) (map m (seq 0 i)) (seq i d) kg)
              (map (fun j => if decide (j < i) then (kh j, [], []) else (Send tt (m j) (kh j), [], [])) (seq 0 n)))
           (Sys (kg (map m (seq 0 n))) (map (fun j => (kh j, [], [])) (seq 0 n))).
Proof.
  induction d as [|d IH]; intros i E.
  - cbn [seq cfold cret]. assert (i = n) as -> by lia. eapply rtc_eq; [|apply rtc_refl]. f_equal. apply map_ext_in. intros j Hj. apply in_seq in Hj. now rewrite decide_True by lia.
  - cbn [seq cfold]. unfold cbind at 1, cbind at 1, crecv, cret at 1.
    eapply rtc_l; [eapply (hand_up i); rewrite seq_lookup_sys, decide_False by lia; reflexivity|].
    rewrite seq_insert_sys by lia.
    replace (map m (seq 0 i) ++ [m i]) with (map m (seq 0 (Datatypes.S i))) by (rewrite seq_S, map_app; reflexivity).
    eapply rtc_transitive; [|apply (IH (Datatypes.S i)); lia].
    eapply rtc_eq; [|apply rtc_refl]. f_equal. apply map_ext_in. intros j Hj. apply in_seq in Hj.
    destruct (decide (j = i)) as [->|NE]; [now rewrite decide_True by lia|].
    destruct (decide (j < i)) as [L|L]; [now rewrite decide_True by lia|now rewrite decide_False by lia].
Qed.

Lemma runs_gather m : @runs M R S n (list M) unit (gather n) (fun i => csend tt (m i)) (map m (seq 0 n)) (fun _ => tt).
Proof. intros kg kh. unfold sysof. eapply rtc_transitive; [|apply (gather_from m (fun j => kh j tt) kg n 0); lia]. apply rtc_refl. Qed.

(** Two loops over the same list, one iteration at a time; the hosts see the elements through [g]. *)
Lemma runs_fold {X Y A B} (g : X -> Y) (l : list X) (fg : A -> X -> cps nat M R A) (fh : nat -> B -> Y -> cps unit M S B) (I : list X -> A -> (nat -> B) -> Prop) :
  (forall done x rest a b, l = done ++ x :: rest -> I done a b ->
     exists a' b', runs n (fg a x) (fun i => fh i (b i) (g x)) a' b' /\ I (done ++ [x]) a' b') ->
  forall a b, I [] a b -> exists a' b', runs n (cfold fg a l) (fun i => cfold (fh i) (b i) (map g l)) a' b' /\ I l a' b'.
Proof.
  intros H. assert (G : forall rest done a b, l = done ++ rest -> I done a b ->
    exists a' b', runs n (cfold fg a rest) (fun i => cfold (fh i) (b i) (map g rest)) a' b' /\ I l a' b').
  { induction rest as [|x rest IH]; intros done a b E Hi.
    - rewrite app_nil_r in E. subst. exists a, b. split; [apply runs_ret|exact Hi].
    - destruct (H done x rest a b E Hi) as (a1 & b1 & R1 & I1).
      destruct (IH (done ++ [x]) a1 b1) as (a2 & b2 & R2 & I2); [now rewrite <- app_assoc|exact I1|].
      exists a2, b2. split; [|exact I2].
      exact (runs_seq (fg a x) (fun acc => cfold fg acc rest) (fun i => fh i (b i) (g x)) (fun i y => cfold (fh i) y (map g rest)) _ _ _ _ R1 R2). }
  intros a b. exact (G l [] a b eq_refl).
Qed.

(** Whole programs: every schedule ends with everyone returned. *)
Lemma runs_done {A B} (gp : cps nat M A A) (hp : nat -> cps unit M B B) a b : runs n gp hp a b ->
  exists N, forall m s, nsteps step m (sysof n (gp Ret) (fun i => hp i Ret)) s ->
    m <= N /\ nsteps step (N - m) s (done a (map b (seq 0 n))).
Proof.
  intros H. specialize (H Ret (fun _ => Ret)). apply hands_steps, rtc_nsteps in H as [N H]. exists N. apply outcome.
  - replace (done a (map b (seq 0 n))) with (sysof n (@Ret nat M A a) (fun i => @Ret unit M B (b i))); [exact H|].
    unfold done, sysof. now rewrite map_map.
  - apply done_nf.
Qed.
End Rules.
