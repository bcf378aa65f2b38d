(** What a party can see of another party's split points. *)
From Verif Require Export TreeMain.
Local Open Scope nat_scope.

(** Two programs that send and receive the same messages; how they end does not matter. *)
Definition quiet {I M R} (p : proc I M R) : Prop := match p with Ret _ | Fail _ => True | _ => False end.
Inductive same_talk {I M R} : proc I M R -> proc I M R -> Prop :=
| talk_end p q : quiet p -> quiet q -> same_talk p q
| talk_send i m p q : same_talk p q -> same_talk (Send i m p) (Send i m q)
| talk_recv i f g : (forall m, same_talk (f m) (g m)) -> same_talk (Recv i f) (Recv i g).

(** The others cannot tell: every run with the one has a run with the other in which everything else is the same. *)
Lemma talk_guest {M R S} (g g' : proc nat M R) (hs : list (proc unit M S * list M * list M)) m s : same_talk g g' -> nsteps step m (Sys g hs) s ->
  exists q, nsteps step m (Sys g' hs) (Sys q (s_hosts s)) /\ same_talk (s_guest s) q.
Proof.
  intros T H. remember (Sys g hs) as s0 eqn:E0. revert g g' hs E0 T. induction H as [s|n s s1 s2 ST _ IH]; intros g g' hs -> T.
  - exists g'. split; [constructor|exact T].
  - inversion ST as [i x k hs0 p d u L|i k hs0 p d x u L|g0 j x k hs0 d u L|g0 j k hs0 x d u L]; subst.
    + inversion T as [p' q' Q|i' x' p' q' T'|]; subst; [destruct Q|]. destruct (IH _ q' _ eq_refl T') as (q & N & T2). exists q. split; [|exact T2].
      econstructor; [eapply step_gsend; exact L|exact N].
    + inversion T as [p' q' Q| |i' f' g'' T']; subst; [destruct Q|]. destruct (IH _ (g'' x) _ eq_refl (T' x)) as (q & N & T2). exists q. split; [|exact T2].
      econstructor; [eapply step_grecv; exact L|exact N].
    + destruct (IH _ g' _ eq_refl T) as (q & N & T2). exists q. split; [|exact T2]. econstructor; [eapply step_hsend; exact L|exact N].
    + destruct (IH _ g' _ eq_refl T) as (q & N & T2). exists q. split; [|exact T2]. econstructor; [eapply step_hrecv; exact L|exact N].
Qed.

(** The same for host [j]: the guest, the other hosts and all channels are the same. *)
Definition with_host {M S} (j : nat) (q : proc unit M S) (hs : list (proc unit M S * list M * list M)) : list (proc unit M S * list M * list M) :=
  match hs !! j with Some (_, d, u) => <[j := (q, d, u)]> hs | None => hs end.
Lemma with_host_same {M S} j (q p : proc unit M S) d u hs : hs !! j = Some (p, d, u) -> with_host j q hs !! j = Some (q, d, u).
Proof. intros L. unfold with_host. rewrite L. apply list_lookup_insert. eapply lookup_lt_Some; eauto. Qed.
Lemma with_host_other {M S} j i (q : proc unit M S) hs : i <> j -> with_host j q hs !! i = hs !! i.
Proof. intros N. unfold with_host. destruct (hs !! j) as [[[p d] u]|]; [|reflexivity]. apply list_lookup_insert_ne; congruence. Qed.
Lemma with_host_insert {M S} j (q p : proc unit M S) d u hs : j < length hs -> with_host j q (<[j := (p, d, u)]> hs) = <[j := (q, d, u)]> hs.
Proof. intros L. unfold with_host. rewrite list_lookup_insert by exact L. apply list_insert_insert. Qed.
Lemma with_host_insert2 {M S} j (q q' p : proc unit M S) d u hs : j < length hs -> with_host j q (<[j := (p, d, u)]> hs) = <[j := (q, d, u)]> (with_host j q' hs).
Proof.
  intros L. rewrite with_host_insert by exact L. unfold with_host. destruct (lookup_lt_is_Some_2 hs j L) as [[[p0 d0] u0] ->]. now rewrite list_insert_insert.
Qed.
Lemma with_host_insert_ne {M S} j i (q : proc unit M S) x hs : i <> j -> with_host j q (<[i := x]> hs) = <[i := x]> (with_host j q hs).
Proof.
  intros N. unfold with_host. rewrite list_lookup_insert_ne by exact N. destruct (hs !! j) as [[[p d] u]|]; [|reflexivity]. apply list_insert_commute. auto.
Qed.
Lemma talk_host {M R S} j (p p' : proc unit M S) (g : proc nat M R) hs d u m s : hs !! j = Some (p, d, u) -> same_talk p p' -> nsteps step m (Sys g hs) s ->
  exists r q d' u', s_hosts s !! j = Some (r, d', u') /\ same_talk r q /\ nsteps step m (Sys g (with_host j p' hs)) (Sys (s_guest s) (with_host j q (s_hosts s))).
Proof.
  intros HJ T H. remember (Sys g hs) as s0 eqn:E0. revert g hs p p' d u E0 HJ T. induction H as [s|n s s1 s2 ST _ IH]; intros g hs p p' d u -> HJ T.
  - exists p, p', d, u. split; [exact HJ|]. split; [exact T|constructor].
  - assert (LJ : j < length hs) by (eapply lookup_lt_Some; eauto).
    inversion ST as [i x k hs0 p0 d0 u0 L|i k hs0 p0 d0 x u0 L|g0 i x k hs0 d0 u0 L|g0 i k hs0 x d0 u0 L]; subst; destruct (decide (i = j)) as [->|NE].
    + rewrite HJ in L. injection L as <- <- <-. destruct (IH k _ p p' (d ++ [x]) u eq_refl) as (r & q & d' & u' & A & B & N); [now apply list_lookup_insert|exact T|].
      exists r, q, d', u'. split; [exact A|]. split; [exact B|]. econstructor; [eapply step_gsend, with_host_same, HJ|]. now rewrite <- (with_host_insert2 j p' p' p (d ++ [x]) u hs LJ).
    + destruct (IH k _ p p' d u eq_refl) as (r & q & d' & u' & A & B & N); [now rewrite list_lookup_insert_ne|exact T|].
      exists r, q, d', u'. split; [exact A|]. split; [exact B|]. econstructor; [eapply step_gsend; rewrite with_host_other by exact NE; exact L|]. now rewrite <- (with_host_insert_ne j i) by exact NE.
    + rewrite HJ in L. injection L as <- <- ->. destruct (IH (k x) _ p p' d u0 eq_refl) as (r & q & d' & u' & A & B & N); [now apply list_lookup_insert|exact T|].
      exists r, q, d', u'. split; [exact A|]. split; [exact B|]. econstructor; [eapply step_grecv, with_host_same, HJ|]. now rewrite <- (with_host_insert2 j p' p' p d u0 hs LJ).
    + destruct (IH (k x) _ p p' d u eq_refl) as (r & q & d' & u' & A & B & N); [now rewrite list_lookup_insert_ne|exact T|].
      exists r, q, d', u'. split; [exact A|]. split; [exact B|]. econstructor; [eapply step_grecv; rewrite with_host_other by exact NE; exact L|]. now rewrite <- (with_host_insert_ne j i) by exact NE.
    + rewrite HJ in L. injection L as -> <- <-. inversion T as [a b Q|i' x' a b T'|]; subst; [destruct Q|].
      destruct (IH g _ k b d (u ++ [x]) eq_refl) as (r & q & d' & u' & A & B & N); [now apply list_lookup_insert|exact T'|].
      exists r, q, d', u'. split; [exact A|]. split; [exact B|]. econstructor; [eapply step_hsend, with_host_same, HJ|]. now rewrite <- (with_host_insert2 j b (Send tt x b) k d (u ++ [x]) hs LJ).
    + destruct (IH g _ p p' d u eq_refl) as (r & q & d' & u' & A & B & N); [now rewrite list_lookup_insert_ne|exact T|].
      exists r, q, d', u'. split; [exact A|]. split; [exact B|]. econstructor; [eapply step_hsend; rewrite with_host_other by exact NE; exact L|]. now rewrite <- (with_host_insert_ne j i) by exact NE.
    + rewrite HJ in L. injection L as -> -> <-. inversion T as [a b Q| |i' f' g' T']; subst; [destruct Q|].
      destruct (IH g _ (k x) (g' x) d0 u eq_refl) as (r & q & d' & u' & A & B & N); [now apply list_lookup_insert|exact (T' x)|].
      exists r, q, d', u'. split; [exact A|]. split; [exact B|]. econstructor; [eapply step_hrecv, with_host_same, HJ|]. now rewrite <- (with_host_insert2 j (g' x) (Recv tt g') (k x) d0 u hs LJ).
    + destruct (IH g _ p p' d u eq_refl) as (r & q & d' & u' & A & B & N); [now rewrite list_lookup_insert_ne|exact T|].
      exists r, q, d', u'. split; [exact A|]. split; [exact B|]. econstructor; [eapply step_hrecv; rewrite with_host_other by exact NE; exact L|]. now rewrite <- (with_host_insert_ne j i) by exact NE.
Qed.

(** ** Program fragments *)
Section Resp.
  Context {I M R : Type}.
  Definition resp {A} (m m' : cps I M R A) : Prop := forall c c', (forall a, same_talk (c a) (c' a)) -> same_talk (m c) (m' c').
  Lemma resp_ret {A} (a : A) : resp (cret a) (cret a). Proof. intros c c' H. apply H. Qed.
  Lemma resp_bind {A B} (m m' : cps I M R A) (f f' : A -> cps I M R B) : resp m m' -> (forall a, resp (f a) (f' a)) -> resp (cbind m f) (cbind m' f').
  Proof. intros H1 H2 c c' H. apply H1. intros a. apply H2, H. Qed.
  Lemma resp_lift {A} (r : res A) : resp (clift r) (clift r).
  Proof. intros c c' H. unfold clift. destruct r; [apply H|]. now apply talk_end. Qed.
  Lemma resp_send i m : resp (csend i m) (csend i m). Proof. intros c c' H. apply talk_send, H. Qed.
  Lemma resp_recv i : resp (crecv i) (crecv i). Proof. intros c c' H. apply talk_recv, H. Qed.
  Lemma resp_fold {A B} (f f' : A -> B -> cps I M R A) l : (forall a b, resp (f a b) (f' a b)) -> forall a, resp (cfold f a l) (cfold f' a l).
  Proof. intros H. induction l as [|b l IH]; intros a; cbn; [apply resp_ret|]. apply resp_bind; [apply H|exact IH]. Qed.
End Resp.
Lemma resp_bcast {M R} n m : resp (@bcast M R n m) (bcast n m). Proof. apply resp_fold. intros. apply resp_send. Qed.
Lemma resp_gather {M R} n : resp (@gather M R n) (gather n). Proof. apply resp_fold. intros. apply resp_bind; [apply resp_recv|intros; apply resp_ret]. Qed.

(** ** Training *)
(** Two configurations that differ only in the values of the split points. *)
Record same_but_points {K} (c c' : pcfg K) : Prop := {
  sp_par : c_par c = c_par c'; sp_depth : c_depth c = c_depth c'; sp_step : c_step c = c_step c'; sp_zero : c_zero c = c_zero c';
  sp_valid : c_valid c = c_valid c'; sp_data : c_data c = c_data c'; sp_shape : map length (c_points c) = map length (c_points c') }.

Section Train.
  Context {K : Type} `{EqDecision K} {C E : Type}.
  Lemma new_hist_shape {D} (O : numops D) (p p' : list (list Qc)) valid n : map length p = map length p' -> new_hist O p valid n = new_hist O p' valid n.
  Proof.
    intros H. unfold new_hist. assert (L : length p = length p') by (rewrite <- (map_length length p), H; apply map_length). rewrite L.
    match goal with |- (x ← mapR ?f ?a; _) = (y ← mapR ?g ?b; _) => assert (X : mapR f a = mapR g b); [|now rewrite X] end.
    generalize (seq 0 (length p')). clear L. revert p' H. induction p as [|x p IH]; intros [|y p'] H l; try discriminate; [now destruct l|]. destruct l as [|i l]; [reflexivity|].
    cbn in H. injection H as H1 H2. cbn [combine mapR fst snd]. rewrite (IH p' H2 l), H1. reflexivity.
  Qed.
  Lemma histograms_shape {D} (O : numops D) (dbn : dtable K (dict nat nat * (Z * nat))) gh p p' z valid m : map length p = map length p' ->
    get_histograms O dbn gh p z valid m = get_histograms O dbn gh p' z valid m.
  Proof.
    intros H. assert (L : length p = length p') by (rewrite <- (map_length length p), H; apply map_length).
    unfold get_histograms, batch_histogram. rewrite L. cbv zeta. destruct (dt_join _ dbn gh); [|reflexivity]. cbn [mbind res_bind]. now rewrite (new_hist_shape O p p').
  Qed.

  Context (cfg cfg' : pcfg K) (SP : same_but_points cfg cfg').
  Ltac same := rewrite ?(sp_par _ _ SP), ?(sp_depth _ _ SP), ?(sp_step _ _ SP), ?(sp_zero _ _ SP), ?(sp_valid _ _ SP), ?(sp_data _ _ SP).
  Ltac go := repeat match goal with
    | |- resp (cbind _ _) _ => apply resp_bind; [|intros]
    | |- resp (cret ?a) (cret ?a) => apply resp_ret
    | |- resp (clift ?a) (clift ?a) => apply resp_lift
    | |- resp (csend _ _) _ => apply resp_send
    | |- resp (crecv _) _ => apply resp_recv
    | |- resp (bcast _ _) _ => apply resp_bcast
    | |- resp (gather _) _ => apply resp_gather
    | |- resp (cfold _ _ _) _ => apply resp_fold; intros
    end.

  Lemma guest_quiet nh it gh enc_gh dec gdec genc :
    same_talk (guest_fit (C := C) (E := E) (R := @gstate K) nh cfg it gh enc_gh dec gdec genc Ret) (guest_fit nh cfg' it gh enc_gh dec gdec genc Ret).
  Proof.
    assert (LV : forall n st q pos, resp (guest_levels (C := C) (E := E) (R := @gstate K) nh cfg it gh dec gdec genc n st q pos) (guest_levels nh cfg' it gh dec gdec genc n st q pos)).
    { induction n as [|n IH]; intros st q pos; cbn [guest_levels]; [apply resp_ret|]. go. destruct q; [apply resp_ret|]. same. unfold guest_batch. same.
      go; unfold gather_as, best_for_host; same; go; try apply IH. rewrite (histograms_shape qops _ _ _ _ _ _ _ (sp_shape _ _ SP)). apply resp_lift. }
    unfold guest_fit. same. refine (resp_lift _ _ _ _). intros t. refine (resp_bcast _ _ _ _ _). intros u. refine (resp_lift _ _ _ _). intros sm. refine (resp_lift _ _ _ _). intros w. cbv zeta.
    refine (resp_lift _ _ _ _). intros pos. refine (LV _ _ _ _ _ _ _). intros st. refine (resp_bcast _ _ _ _ _). intros u'.
    apply talk_end; unfold cbind, clift; destruct (guest_convert _ _ _); exact I.
  Qed.

  Lemma host_quiet (O : numops C) sn : same_talk (host_fit (E := E) (R := list node * dict nat mval) O sn cfg Ret) (host_fit O sn cfg' Ret).
  Proof.
    assert (LV : forall n ghc mask, resp (host_levels (E := E) (R := list node * dict nat mval) O sn cfg n ghc mask) (host_levels O sn cfg' n ghc mask)).
    { induction n as [|n IH]; intros ghc mask; cbn [host_levels]; [apply resp_ret|]. apply resp_bind; [unfold recv_as; go|]. intros ids. destruct ids; [apply resp_ret|]. same. unfold recv_as, host_batch, recv_as. same.
      go; try apply IH. rewrite (histograms_shape O _ _ _ _ _ _ _ (sp_shape _ _ SP)). apply resp_lift. }
    unfold host_fit. same. unfold recv_as. refine (resp_recv _ _ _ _). intros x. refine (resp_lift _ _ _ _). intros ghc. refine (LV _ _ _ _ _ _). intros mask.
    refine (resp_recv _ _ _ _). intros y. refine (resp_lift _ _ _ _). intros tree. apply talk_end; unfold cbind, clift; destruct (host_convert _ _ _ _); exact I.
  Qed.
End Train.
