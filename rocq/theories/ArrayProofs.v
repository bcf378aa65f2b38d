(** Proofs about arrays of results. *)
From Verif Require Export ArraySpec FloatProofs.
Local Open Scope nat_scope.

Lemma mapR_forall2 {A B} (f : A -> res B) (R : A -> B -> Prop) l : (forall x, x ∈ l -> exists y, f x = Ok y /\ R x y) -> exists ys, mapR f l = Ok ys /\ Forall2 R l ys.
Proof.
  induction l as [|x l IH]; intros H; [exists []; split; [reflexivity|constructor]|]. destruct (H x (elem_of_list_here _ _)) as (y & E & Rxy). destruct IH as (ys & E' & F); [intros z Hz; apply H; now right|].
  exists (y :: ys). cbn. rewrite E, E'. split; [reflexivity|now constructor].
Qed.
Lemma chunks_length {V} n k (l : list V) : length (chunks n k l) = n.
Proof. revert l. induction n; intros l; cbn; [reflexivity|]. now rewrite IHn. Qed.
Lemma chunks_concat {V} n k (l : list V) : length l = n * k -> concat (chunks n k l) = l.
Proof. revert l. induction n as [|n IH]; intros l L; cbn in *; [now destruct l|]. rewrite IH by (rewrite drop_length; lia). apply take_drop. Qed.
Lemma chunks_size {V} n k (l : list V) r : length l = n * k -> r ∈ chunks n k l -> length r = k /\ forall x, x ∈ r -> x ∈ l.
Proof.
  revert l. induction n as [|n IH]; intros l L H; cbn in *; [now apply elem_of_nil in H|]. apply elem_of_cons in H as [->|H].
  - split; [rewrite take_length; lia|]. intros x Hx. rewrite <- (take_drop k l). apply elem_of_app. now left.
  - destruct (IH (drop k l)) as [A B]; [rewrite drop_length; lia|exact H|]. split; [exact A|]. intros x Hx. rewrite <- (take_drop k l). apply elem_of_app. right. now apply B.
Qed.
Lemma concat_forall2 {A B} (R : A -> B -> Prop) (ls : list (list A)) (ms : list (list B)) : Forall2 (Forall2 R) ls ms -> Forall2 R (concat ls) (concat ms).
Proof. induction 1; cbn; [constructor|]. now apply Forall2_app. Qed.

Section Array.
  Context {V : Type} (f to_float : V -> res V).
  Hypothesis idem : forall x y, to_float x = Ok y -> to_float y = Ok y.
  Definition good (x y : V) : Prop := exists c, f x = Ok c /\ to_float c = Ok y.
  Definition fine (x : V) : Prop := exists y, good x y.
  Lemma each_good data : (forall x, x ∈ data -> fine x) -> exists cs, each f data = Ok cs /\ Forall2 (fun x c => f x = Ok c /\ exists y, to_float c = Ok y) data cs.
  Proof. intros H. apply mapR_forall2. intros x Hx. destruct (H x Hx) as (y & c & E & T). eauto. Qed.
  Lemma stack_good (rows : list (arr V)) (ins : list (list V)) (sh : list nat) : Forall2 (fun i r => r.1 = sh /\ Forall2 (fun x c => exists y, to_float c = Ok y /\ good x y) i r.2) ins rows ->
    exists ys, np_float to_float rows = Ok (match rows with [] => [0] | _ => length rows :: sh end, ys) /\ Forall2 good (concat ins) ys.
  Proof.
    intros F. assert (C : (np_stack rows).2 = concat (map snd rows)) by (destruct rows; reflexivity).
    assert (F' : Forall2 (fun x c => exists y, to_float c = Ok y /\ good x y) (concat ins) (concat (map snd rows))).
    { apply concat_forall2. clear -F. induction F as [|i r ins rows [_ H] F IH]; constructor; assumption. }
    unfold np_float. rewrite C. destruct (mapR_forall2 to_float (fun c y => to_float c = Ok y) (concat (map snd rows))) as (ys & E & FY).
    { intros c Hc. apply elem_of_list_lookup in Hc as [j Hc]. destruct (Forall2_lookup_r _ _ _ _ _ F' Hc) as (x & _ & y & T & _). eauto. }
    rewrite E. cbn [mbind res_bind]. exists ys. split.
    - destruct F as [|i r ins rows [S _] F]; [reflexivity|]. cbn. now rewrite S.
    - clear -F' FY. revert ys FY. induction F' as [|x c xs cs (y & T & G) F IH]; intros ys FY; inversion FY; subst; constructor; [|now apply IH]. congruence.
  Qed.
  Lemma recursive_eq n m s data : recursive f to_float (n :: m :: s) data =
    (rows ← mapR (fun row => match s with [] => r ← each f row; Ok ([m], r) | _ => recursive f to_float (m :: s) row end) (chunks n (prod_shape (m :: s)) data); np_float to_float rows).
  Proof. reflexivity. Qed.
  Lemma good_fixed x y : good x y -> exists z, to_float y = Ok z /\ good x z.
  Proof. intros (c & E & T). exists y. split; [eapply idem, T|]. now exists c. Qed.
  Lemma recursive_good s : forall data, s <> [] -> length data = prod_shape s -> (forall x, x ∈ data -> fine x) ->
    exists ys, recursive f to_float s data = Ok (out_shape s, ys) /\ Forall2 good data ys.
  Proof.
    assert (EACH : forall l, (forall x, x ∈ l -> fine x) -> exists cs, each f l = Ok cs /\ Forall2 (fun x c => exists y, to_float c = Ok y /\ good x y) l cs).
    { intros l H. destruct (each_good l H) as (cs & E & F). exists cs. split; [exact E|]. eapply Forall2_impl; [exact F|]. cbv beta. intros x c (E1 & y & T). exists y. split; [exact T|]. now exists c. }
    induction s as [|n s IH]; intros data NE L H; [done|]. destruct s as [|m s].
    - destruct (EACH data H) as (cs & E & F). cbn [recursive]. rewrite E. cbn [mbind res_bind].
      destruct (stack_good [([n], cs)] [data] [n]) as (ys & E' & G); [constructor; [split; [reflexivity|exact F]|constructor]|]. exists ys. split; [exact E'|]. cbn in G. now rewrite app_nil_r in G.
    - rewrite recursive_eq. set (s1 := m :: s) in *.
      assert (LP : length data = n * prod_shape s1) by exact L.
      assert (ROWS : exists rows, mapR (fun row => match s with [] => r ← each f row; Ok ([m], r) | _ => recursive f to_float s1 row end) (chunks n (prod_shape s1) data) = Ok rows /\
                Forall2 (fun i r => r.1 = cut_shape s1 /\ Forall2 (fun x c => exists y, to_float c = Ok y /\ good x y) i r.2) (chunks n (prod_shape s1) data) rows).
      { apply mapR_forall2. intros row Hr. destruct (chunks_size _ _ _ _ LP Hr) as [LR SUB].
        destruct s as [|m' s].
        - unfold s1. destruct (EACH row) as (cs & E & F); [intros x Hx; apply H, SUB, Hx|]. rewrite E. exists ([m], cs). split; [reflexivity|]. split; [now destruct m|exact F].
        - destruct (IH row ltac:(discriminate) LR) as (ys & E & F); [intros x Hx; apply H, SUB, Hx|]. exists (out_shape s1, ys). split; [exact E|]. split; [reflexivity|]. eapply Forall2_impl; [exact F|]. intros x y. apply good_fixed. }
      destruct ROWS as (rows & E & F). unfold arr in *. rewrite E. cbn [mbind res_bind].
      destruct (stack_good rows _ (cut_shape s1) F) as (ys & E' & G). exists ys. rewrite E'. rewrite chunks_concat in G by exact LP. split; [|exact G]. f_equal. f_equal.
      pose proof (Forall2_length _ _ _ F) as LF. rewrite chunks_length in LF. destruct rows as [|r rows]; cbn in LF; subst n; reflexivity.
  Qed.
  (** Entries that have no float64 *)
  Lemma recursive_bad e s : forall data, s <> [] -> length data = prod_shape s -> data <> [] -> (forall x, x ∈ data -> exists c, f x = Ok c /\ to_float c = Err e) ->
    recursive f to_float s data = Err e.
  Proof.
    assert (EACH : forall l, (forall x, x ∈ l -> exists c, f x = Ok c /\ to_float c = Err e) -> exists cs, each f l = Ok cs /\ Forall2 (fun x c => to_float c = Err e) l cs).
    { intros l H. apply mapR_forall2. intros x Hx. destruct (H x Hx) as (c & E & T). eauto. }
    assert (STK : forall (rows : list (arr V)), concat (map snd rows) <> [] -> (forall c, c ∈ concat (map snd rows) -> to_float c = Err e) -> np_float to_float rows = Err e).
    { intros rows N H. unfold np_float. assert (C : (np_stack rows).2 = concat (map snd rows)) by (destruct rows; reflexivity). rewrite C. destruct (concat (map snd rows)) as [|c l]; [done|]. cbn. now rewrite (H c (elem_of_list_here _ _)). }
    induction s as [|n s IH]; intros data NE L D H; [done|]. destruct s as [|m s].
    - destruct (EACH data H) as (cs & E & F). cbn [recursive]. rewrite E. cbn [mbind res_bind]. apply STK; cbn; rewrite app_nil_r.
      + intros ->. inversion F; subst. now apply D.
      + intros c Hc. apply elem_of_list_lookup in Hc as [j Hc]. destruct (Forall2_lookup_r _ _ _ _ _ F Hc) as (x & _ & T). exact T.
    - rewrite recursive_eq. set (s1 := m :: s) in *. assert (LP : length data = n * prod_shape s1) by exact L.
      assert (PK : 0 < prod_shape s1). { destruct (prod_shape s1); [|lia]. rewrite Nat.mul_0_r in LP. now destruct data. }
      destruct s as [|m' s].
      + unfold s1. assert (ROWS : exists rows, mapR (fun row => r ← each f row; Ok ([m], r)) (chunks n (prod_shape [m]) data) = Ok rows /\ Forall2 (fun i r => Forall2 (fun x c => to_float c = Err e) i r.2) (chunks n (prod_shape [m]) data) rows).
        { apply mapR_forall2. intros row Hr. destruct (chunks_size _ _ _ _ LP Hr) as [LR SUB]. destruct (EACH row) as (cs & E & F); [intros x Hx; apply H, SUB, Hx|]. rewrite E. exists ([m], cs). split; [reflexivity|exact F]. }
        destruct ROWS as (rows & E & F). unfold arr in *. rewrite E. cbn [mbind res_bind].
        assert (F' : Forall2 (fun x c => to_float c = Err e) (concat (chunks n (prod_shape [m]) data)) (concat (map snd rows))). { apply concat_forall2. clear -F. induction F; constructor; assumption. }
        rewrite chunks_concat in F' by exact LP. apply STK.
        * intros X. rewrite X in F'. inversion F'; subst. now apply D.
        * intros c Hc. apply elem_of_list_lookup in Hc as [j Hc]. destruct (Forall2_lookup_r _ _ _ _ _ F' Hc) as (x & _ & T). exact T.
      + destruct n as [|n]; [now destruct data|]. assert (GE : prod_shape s1 <= length data) by (rewrite LP; apply Nat.le_add_r). clear LP. cbn [chunks mapR]. rewrite (IH (take (prod_shape s1) data)); [reflexivity|discriminate|rewrite take_length; lia| |].
        * intros X. apply (f_equal length) in X. rewrite take_length in X. change (length (@nil V)) with 0 in X. lia.
        * intros x Hx. apply H. rewrite <- (take_drop (prod_shape s1) data). apply elem_of_app. now left.
  Qed.
End Array.
