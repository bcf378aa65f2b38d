(** From the row objects to the model, and from row objects to predictions. *)
From Verif Require Export PipeProofs.
From Verif Require Import P_Boost.
Local Open Scope nat_scope.

Section Ext.
  Context (x y : option nat -> nat -> Qc) (XY : forall own f, x own f = y own f).
  Lemma pwalk_ext t : pwalk x t = pwalk y t.
  Proof. induction t as [w|own f th l IHl r IHr]; [reflexivity|]. cbn. now rewrite XY, IHl, IHr. Qed.
  Lemma guest_only_ext t : guest_only x t <-> guest_only y t.
  Proof. induction t as [w|own f th l IHl r IHr]; [reflexivity|]. cbn. destruct own as [i|]; [reflexivity|]. rewrite XY. now destruct (qleb _ _). Qed.
End Ext.

Section Fit.
  Context {K N : Type} `{EqDecision K} `{EqDecision N}.
  Context (rnd : Qc -> Qc) (pred : loss_kind -> list Qc -> list Qc) (lossf : loss_kind -> dtable K nat -> dtable K (list Qc) -> Qc).
  Context (nh : nat) (g : source K N) (hs : nat -> source K N) (sname : nat -> site) (it : imp_type).
  Context (P : bparams) (bp : bin_params) (par : sparams) (depth stp d : nat) (labels : dtable K label) (ls : list label).
  Context (gdraw : nat -> nat -> nat -> list nat) (hdraw : nat -> nat -> nat -> nat -> list nat).
  Context (LE : legal rnd pred nh g hs sname P bp par depth stp d labels ls gdraw hdraw).
  Local Notation U := (dt_keys (so_rows g)).
  Local Notation dim := (if 2 <? length ls then length ls else 1).
  Local Notation kind := (if length ls =? 2 then Sigmoid else Softmax).

  (** *** What is loaded *)
  Definition loaded (s : source K N) : heap * pcfg K :=
    match load bp par depth stp (so_header s) (so_heap s) (so_rows s) with Ok r => r | Err _ => ([], PCfg par depth stp [] [] [] (DT [])) end.
  Definition pts_of (s : source K N) : list (list Qc) := c_points (loaded s).2.
  Definition cfg (s : source K N) : pcfg K := set_valid (loaded s).2 (repeat true (length (pts_of s))).
  Definition pty (s : source K N) : party K := party_of par (pts_of s) s.
  Lemma loaded_ok s : source_ok bp s -> load bp par depth stp (so_header s) (so_heap s) (so_rows s) = Ok (loaded s) /\
    sees bp par s (pts_of s) (pty s) /\ overwritten s (pty s) (loaded s).1 /\ party_ok (dt_keys (so_rows s)) (cfg s) (pty s) /\
    (forall r, values_of s r -> raw_of (cfg s) r) /\ c_par (cfg s) = par /\ c_depth (cfg s) = depth /\ c_step (cfg s) = stp.
  Proof.
    intros SO. destruct (load_ok bp par depth stp s SO) as (h' & points & zeros & data & E & A & B & C & D). unfold cfg, pty, pts_of, loaded. rewrite E. cbn. auto 10.
  Qed.

  Local Notation gcfg := (cfg g).
  Local Notation hcfg := (fun i => cfg (hs i)).
  Local Notation guest := (pty g).
  Definition hosts_of : list (party K) := map (fun i => pty (hs i)) (seq 0 nh).
  Lemma hosts_at i p : hosts_of !! i = Some p -> i < nh /\ p = pty (hs i).
  Proof. unfold hosts_of. intros E. rewrite map_lookup in E. destruct (seq 0 nh !! i) as [j|] eqn:S; [|discriminate]. apply lookup_seq in S as [-> L]. cbn in E. injection E as <-. auto. Qed.

  Lemma party_keys U1 U2 (c : pcfg K) (p : party K) : (forall k, k ∈ U1 <-> k ∈ U2) -> party_ok U1 c p -> party_ok U2 c p.
  Proof. intros E [a b c' d' e f g' h i j l]. split; auto. intros k. now rewrite b, E. Qed.
  Lemma loaded_parties : exists gh vg vh, parties_ok U nh gcfg hcfg guest hosts_of sname gh vg vh.
  Proof.
    destruct LE as [L0 LG LH LS LZ LN LI (LD & L30 & LST & LL & LM) _ _ _ _ _ _]. destruct (loaded_ok g LG) as (_ & _ & _ & PG & _ & _ & CD & CS). destruct LG as (_ & _ & _ & (NE & NK & _) & _).
    exists (DT (map (fun k => (k, (zq 0, zq 0))) U)), (fun _ => zq 0), (fun _ => zq 0). split.
    - split; [exact NK|]. intros X. apply NE. unfold dt_keys in X. now apply fmap_nil_inv in X.
    - unfold hosts_of. rewrite map_length, seq_length. auto.
    - exact PG.
    - intros i p Hp. apply hosts_at in Hp as [Li ->]. destruct (loaded_ok (hs i) (LH i Li)) as (_ & _ & _ & PH & _). eapply party_keys; [|exact PH]. intros k. now apply LS.
    - split; [exact LM|]. intros i p Hp. apply hosts_at in Hp as [Li ->]. exact LM.
    - exact LN.
    - exact LI.
    - split; [rewrite CS; exact LST|]. intros i Li. destruct (loaded_ok (hs i) (LH i Li)) as (_ & _ & _ & _ & _ & _ & _ & CS'). congruence.
    - intros i Li. destruct (loaded_ok (hs i) (LH i Li)) as (_ & _ & _ & _ & _ & _ & CD' & _). congruence.
    - unfold dt_keys. rewrite fmap_length. exact LZ.
    - assert (X : dt_keys (DT (map (fun k : K => (k, (zq 0, zq 0))) U)) = U). { unfold dt_keys at 1. cbn [dt_data]. rewrite <- list_fmap_compose. now apply list_fmap_id. }
      split; [rewrite <- X in NK; exact NK|]. split; [intros k; now rewrite X|]. intros k c Hc. cbn in Hc. apply elem_of_list_fmap in Hc as (k' & E & _). congruence.
  Qed.

  (** *** The labels *)
  Lemma labels_ok : exists classes y lab, check_label labels = Ok (classes, dim, kind, y) /\ distinct (dt_values labels) classes /\ length classes = length ls /\
    (forall i j a b, classes !! i = Some a -> classes !! j = Some b -> (i < j <-> before a b)) /\
    (forall k l, (k, l) ∈ dt_data labels -> classes !! lab k = Some l) /\
    (forall k, k ∈ U -> lab k < length ls) /\ dt_wf y /\ (forall k, k ∈ dt_keys y <-> k ∈ U) /\ forall k n, (k, n) ∈ dt_data y -> n = lab k.
  Proof.
    destruct (le_keys _ _ _ _ _ _ _ _ _ _ _ _ _ _ _ _ LE) as [W KS]. destruct (le_labels _ _ _ _ _ _ _ _ _ _ _ _ _ _ _ _ LE) as (D & A & L).
    destruct (check_label_ok labels ls W D A L) as (classes & y & E & I & DC & WY & KY & G). exists classes, y, (fun k => match tget y k with Some n => n | None => 0 end).
    assert (LC : length classes = length ls). { apply Permutation_length. symmetry. eapply distinct_perm; eauto. }
    assert (GY : forall k n, (k, n) ∈ dt_data y -> exists l, (k, l) ∈ dt_data labels).
    { intros k n Hn. assert (X : k ∈ dt_keys labels). { apply KY. unfold dt_keys. apply elem_of_list_fmap. exists (k, n). auto. }
      unfold dt_keys in X. apply elem_of_list_fmap in X as ([k' l] & -> & X). exists l. exact X. }
    assert (YG : forall k, k ∈ dt_keys labels -> exists n, tget y k = Some n /\ (k, n) ∈ dt_data y).
    { intros k Hk. apply KY, tget_is_Some in Hk as [n Hn]. exists n. split; [exact Hn|]. now apply tget_elem in Hn. }
    split; [exact E|]. split; [exact DC|]. split; [exact LC|]. split; [intros i j a b Ha Hb; now apply (increasing_lookup classes)|]. split; [|split; [|split; [exact WY|split]]].
    - intros k l Hl. destruct (YG k) as (n & Hn & Hy). { unfold dt_keys. apply elem_of_list_fmap. exists (k, l). auto. } rewrite Hn. apply (G k n l Hy Hl).
    - intros k Hk. apply KS in Hk. destruct (YG k Hk) as (n & Hn & Hy). rewrite Hn. destruct (GY k n Hy) as [l Hl]. rewrite <- LC. apply (G k n l Hy Hl).
    - intros k. rewrite KY. apply KS.
    - intros k n Hn. apply tget_elem in Hn; [|exact WY]. now rewrite Hn.
  Qed.
  Lemma loaded_ready y lab : (forall k, k ∈ U -> lab k < length ls) -> dt_wf y -> (forall k, k ∈ dt_keys y <-> k ∈ U) -> (forall k n, (k, n) ∈ dt_data y -> n = lab k) ->
    ready rnd pred U nh gcfg hcfg guest hosts_of sname P kind dim y lab gdraw hdraw d.
  Proof.
    intros LB WY KY GY. pose proof loaded_parties as PA. destruct LE as [L0 LG LH LS LZ LN LI (LD & L30 & LST & LL & LM) LR LW LK LB' LP LRN].
    assert (LEN : forall s, source_ok bp s -> length (c_points (cfg s)) = length (so_header s)). { intros s SO. apply (loaded_ok s SO). }
    split.
    - exact PA.
    - rewrite (LEN g LG). destruct LG as (_ & A & B & _). split; [exact A|]. split; [exact B|]. intros i Li. rewrite (LEN _ (LH i Li)). destruct (LH i Li) as (_ & A' & B' & _). auto.
    - exact LR.
    - exact LW.
    - split; [|exact L30]. destruct (loaded_ok g LG) as (_ & _ & _ & _ & _ & _ & CD & _). congruence.
    - destruct (loaded_ok g LG) as (_ & _ & _ & _ & _ & CP & _). rewrite CP. exact LL.
    - destruct (Nat.ltb_spec 2 (length ls)); lia.
    - intros k Hk. specialize (LB k Hk). destruct (Nat.ltb_spec 2 (length ls)), (Nat.eqb_spec (length ls) 2); cbn; lia.
    - auto.
    - intros f Hf. destruct (LP kind f) as [A B]. split; [lia|exact B].
    - exact LRN.
  Qed.

  (** *** The jobs around training *)
  Lemma job_runs {C E R S} classes y enc dec gdec genc (Ops : numops C) st ht : check_label labels = Ok (classes, dim, kind, y) ->
    @runs (msg K C E) R S nh _ _ (guest_train rnd pred lossf nh P gcfg it kind dim y gdraw enc dec gdec genc) (fun i => host_train Ops (sname i) P (hcfg i) (hdraw i)) st (fun i => (dim, ht i)) ->
    @runs (msg K C E) R S nh _ _ (guest_job rnd pred lossf P bp par depth stp nh it gdraw enc dec gdec genc (so_header g) (so_heap g) (so_rows g) labels)
      (fun i => host_job P bp par depth stp Ops (sname i) (hdraw i) (so_header (hs i)) (so_heap (hs i)) (so_rows (hs i)))
      ((loaded g).1, (classes, dim, kind), st) (fun i => ((loaded (hs i)).1, (dim, ht i))).
  Proof.
    intros EC RU. unfold guest_job, host_job.
    eapply runs_glift; [exact (proj1 (loaded_ok g (le_guest _ _ _ _ _ _ _ _ _ _ _ _ _ _ _ _ LE)))|]. eapply runs_glift; [exact EC|]. cbv beta. cbn [fst snd].
    apply (runs_hlift nh _ (fun i => loaded (hs i))); [intros i Hi; exact (proj1 (loaded_ok (hs i) (le_hosts _ _ _ _ _ _ _ _ _ _ _ _ _ _ _ _ LE i Hi)))|].
    refine (runs_seq nh _ _ _ _ _ _ _ _ RU _). apply runs_ret.
  Qed.
End Fit.
