(** A host that keeps what it receives: what it has at the end of training. *)
From Verif Require Export LeakProofs ModeMain.
From Verif Require Import PyBase QcBase FixedPointModel FixedPointProofs FloatProofs PaillierModel PaillierSpec PaillierProofs EncNumProofs EncryptModePaillier EncryptModeSpec EncryptModeProofs.
From Coq Require Import Lia.
Local Open Scope nat_scope.

(** ** Diaries do not change a run *)
Section Diary.
  Context {M R S : Type}.
  Definition kept_host (h : proc unit M S * list M * list M) (h' : proc unit M (S * list M) * list M * list M) : Prop :=
    exists log, h' = (diary h.1.1 log, h.1.2, h.2).
  Definition kept (s : sys M R S) (s' : sys M R (S * list M)) : Prop := s_guest s = s_guest s' /\ Forall2 kept_host (s_hosts s) (s_hosts s').
  Lemma kept_step s t s' : step s t -> kept s s' -> exists t', step s' t' /\ kept t t'.
  Proof.
    intros ST [EG F]. destruct s' as [g' hs']. cbn in *. subst g'. inversion ST as [i x q hs0 p d u L|i q hs0 p d x u L|g0 j x q hs0 d u L|g0 j q hs0 x d u L]; subst; cbn in *;
    destruct (Forall2_lookup_l _ _ _ _ _ F L) as (h' & L' & log & ->); cbn in L'.
    - eexists. split; [eapply step_gsend; exact L'|]. split; [reflexivity|]. cbn. apply Forall2_insert; [exact F|]. now exists log.
    - eexists. split; [eapply step_grecv; exact L'|]. split; [reflexivity|]. cbn. apply Forall2_insert; [exact F|]. now exists log.
    - eexists. split; [eapply step_hsend; exact L'|]. split; [reflexivity|]. cbn. apply Forall2_insert; [exact F|]. now exists log.
    - eexists. split; [eapply step_hrecv; exact L'|]. split; [reflexivity|]. cbn. apply Forall2_insert; [exact F|]. now exists (log ++ [x]).
  Qed.
  Lemma kept_steps m s t s' : nsteps step m s t -> kept s s' -> exists t', nsteps step m s' t' /\ kept t t'.
  Proof.
    intros H. revert s'. induction H as [s|m s s1 t ST _ IH]; intros s' KK; [exists s'; split; [constructor|exact KK]|].
    destruct (kept_step _ _ _ ST KK) as (t1 & ST' & K1). destruct (IH _ K1) as (t' & N & K'). exists t'. split; [econstructor; eauto|exact K'].
  Qed.
  Lemma kept_done r rs t' : kept (done r rs) t' -> exists logs, length logs = length rs /\ t' = done r (zip rs logs).
  Proof.
    intros [EG F]. destruct t' as [g hs]. cbn in *. subst g.
    assert (X : exists logs, length logs = length rs /\ hs = map (fun x : S * list M => (Ret x, [], [])) (zip rs logs)); [|destruct X as (logs & L & ->); eauto].
    revert hs F. induction rs as [|x rs IH]; intros hs F; cbn in F.
    - inversion F; subst. exists []. auto.
    - inversion F as [|a b l l' (log & ->) F']; subst. destruct (IH _ F') as (logs & L & ->). exists (log :: logs). split; [cbn; now rewrite L|reflexivity].
  Qed.
  Lemma kept_start s : kept s (with_diaries s).
  Proof. split; [reflexivity|]. cbn. induction (s_hosts s) as [|h l IH]; cbn; constructor; [now exists []|exact IH]. Qed.
  Lemma diary_always (s : sys M R S) r rs : always s (done r rs) -> exists logs, length logs = length rs /\ always (with_diaries s) (done r (zip rs logs)).
  Proof.
    intros (N & A). destruct (A 0 s (nsteps_O _ _)) as [_ H]. rewrite Nat.sub_0_r in H.
    destruct (kept_steps _ _ _ _ H (kept_start s)) as (t' & N' & K'). destruct (kept_done _ _ _ K') as (logs & L & ->). exists logs. split; [exact L|].
    exists N. apply outcome; [exact N'|apply done_nf].
  Qed.
End Diary.

(** ** What the guest sends *)
Section Opens.
  Context {K E R : Type} (i : nat).
  Local Notation msg := (msg K cell E).
  (** Whatever the guest receives, if it ends then the tables of encrypted gradients it has sent to host [i] start with [L]. *)
  Fixpoint opens (p : proc nat msg R) (L : list (dtable K (cell * cell))) : Prop :=
    match p with
    | Ret _ => L = []
    | Fail _ => True
    | Send j m q =>
        if decide (j = i) then
          match m, L with
          | MGH t, t' :: L' => t = t' /\ opens q L'
          | _, _ => opens q L
          end
        else opens q L
    | Recv _ q => forall m, opens (q m) L
    end.
  Lemma opens_nil p : opens p [].
  Proof. induction p as [r|e|j m q IH|j q IH]; cbn; auto. destruct (decide (j = i)); [|exact IH]. destruct m; exact IH. Qed.

  Definition says {A} (m : cps nat msg R A) (L : list (dtable K (cell * cell))) (Q : A -> Prop) : Prop :=
    forall c L', (forall a, Q a -> opens (c a) L') -> opens (m c) (L ++ L').
  Lemma says_ret {A} (a : A) (Q : A -> Prop) : Q a -> says (cret a) [] Q. Proof. intros H c L' HC. now apply HC. Qed.
  Lemma says_bind {A B} (m : cps nat msg R A) (f : A -> cps nat msg R B) L1 L2 P Q : says m L1 P -> (forall a, P a -> says (f a) L2 Q) -> says (cbind m f) (L1 ++ L2) Q.
  Proof. intros H1 H2 c L' HC. unfold cbind. rewrite <- (assoc_L app). apply H1. intros a Ha. now apply H2. Qed.
  Lemma says_lift {A} (r : res A) (Q : A -> Prop) : (forall a, r = Ok a -> Q a) -> says (clift r) [] Q.
  Proof. intros H c L' HC. unfold clift. destruct r as [a|e]; [|exact I]. apply HC. now apply H. Qed.
  Definition silent {A} (m : cps nat msg R A) : Prop := says m [] (fun _ => True).
  Lemma silent_bind {A B} (m : cps nat msg R A) (f : A -> cps nat msg R B) : silent m -> (forall a, silent (f a)) -> silent (cbind m f).
  Proof. intros H1 H2. apply (says_bind m f [] [] _ _ H1). intros a _. apply H2. Qed.
  Lemma silent_lift {A} (r : res A) : silent (clift r). Proof. now apply says_lift. Qed.
  Lemma silent_ret {A} (a : A) : silent (cret a). Proof. now apply says_ret. Qed.
  Lemma silent_recv j : silent (crecv j). Proof. intros c L' HC m. now apply HC. Qed.
  Lemma silent_send j m : (match m with MGH _ => False | _ => True end) -> silent (csend j m).
  Proof. intros H c L' HC. specialize (HC tt Logic.I). cbn [app]. unfold csend. cbn [opens]. destruct (decide (j = i)); [|exact HC]. destruct m; try exact HC. contradiction. Qed.
  Lemma silent_fold {A B} (f : A -> B -> cps nat msg R A) l : (forall a b, silent (f a b)) -> forall a, silent (cfold f a l).
  Proof. intros H. induction l as [|b l IH]; intros a; cbn; [apply silent_ret|]. apply silent_bind; [apply H|exact IH]. Qed.
  Lemma silent_bcast n m : (match m with MGH _ => False | _ => True end) -> silent (bcast n m).
  Proof. intros H. apply silent_fold. intros. now apply silent_send. Qed.
  Lemma silent_gather n : silent (gather n).
  Proof. apply silent_fold. intros. apply silent_bind; [apply silent_recv|intros; apply silent_ret]. Qed.
  Lemma says_bcast n t : i < n -> says (bcast n (MGH t)) [t] (fun _ => True).
  Proof.
    intros Hi. unfold bcast.
    assert (OUT : forall l u, i ∉ l -> silent (cfold (fun _ j => csend j (MGH t)) u l)).
    { induction l as [|j l IH]; intros u N; cbn [cfold]; [apply silent_ret|]. apply not_elem_of_cons in N as [N1 N2]. apply silent_bind; [|intros a; now apply IH].
      intros c L' HC. cbn [app]. unfold csend. cbn [opens]. rewrite decide_False by congruence. now apply HC. }
    assert (IN : forall l u, NoDup l -> i ∈ l -> says (cfold (fun _ j => csend j (MGH t)) u l) [t] (fun _ => True)).
    { induction l as [|j l IH]; intros u ND HI; [now apply elem_of_nil in HI|]. apply NoDup_cons in ND as [N1 N2]. cbn [cfold]. destruct (decide (j = i)) as [->|NE].
      - apply (says_bind _ _ [t] [] (fun _ => True)); [|intros a _; now apply OUT]. intros c L' HC. unfold csend. cbn [opens app]. rewrite decide_True by reflexivity. split; [reflexivity|]. now apply HC.
      - apply elem_of_cons in HI as [HI|HI]; [congruence|]. apply (says_bind _ _ [] [t] (fun _ => True)); [|intros a _; now apply IH].
        intros c L' HC. cbn [app]. unfold csend. cbn [opens]. rewrite decide_False by congruence. now apply HC. }
    apply IN; [apply NoDup_ListNoDup, seq_NoDup|]. apply elem_of_list_In, in_seq. lia.
  Qed.
End Opens.

(** What the host has written down, with what is on its way, starts with what the guest sends first. *)
Section Log.
  Context {K E R S : Type}.
  Local Notation msg := (msg K cell E).
  Lemma tables_app (a b : list msg) : tables (a ++ b) = tables a ++ tables b.
  Proof. unfold tables. apply omap_app. Qed.
  Definition sent_first (i : nat) (L : list (dtable K (cell * cell))) (s : sys msg R (S * list msg)) : Prop :=
    exists p log d u L', s_hosts s !! i = Some (diary p log, d, u) /\ opens i (s_guest s) L' /\ L `prefix_of` tables (log ++ d) ++ L'.
  Lemma sent_first_step i L s t : step s t -> sent_first i L s -> sent_first i L t.
  Proof.
    intros ST (p & log & d & u & L' & HI & OP & PF). assert (LI : i < length (s_hosts s)) by (eapply lookup_lt_Some; eauto).
    inversion ST as [j x q hs0 p0 d0 u0 HJ|j q hs0 p0 d0 x u0 HJ|g0 j x q hs0 d0 u0 HJ|g0 j q hs0 x d0 u0 HJ]; subst; cbn [s_guest s_hosts] in *.
    - cbn [opens] in OP. destruct (decide (j = i)) as [->|NE].
      + rewrite HI in HJ. injection HJ as <- <- <-.
        assert (X : exists L2, opens i q L2 /\ L `prefix_of` tables (log ++ d ++ [x]) ++ L2).
        { rewrite (assoc_L app), tables_app. destruct x as [t| | | | | | | | | | | | |]; try (exists L'; split; [exact OP|]; unfold tables at 2; cbn [omap list_omap]; now rewrite app_nil_r).
          unfold tables at 2. cbn [omap list_omap]. destruct L' as [|t' L'].
          - exists []. split; [apply opens_nil|]. rewrite app_nil_r in *. now apply prefix_app_r.
          - destruct OP as [-> OP]. exists L'. split; [exact OP|]. now rewrite <- (assoc_L app). }
        destruct X as (L2 & O2 & P2). exists p, log, (d ++ [x]), u, L2. split; [now apply list_lookup_insert|auto].
      + exists p, log, d, u, L'. cbn [s_hosts s_guest]. split; [now rewrite list_lookup_insert_ne|auto].
    - cbn [opens] in OP. destruct (decide (j = i)) as [->|NE].
      + rewrite HI in HJ. injection HJ as <- <- ->. exists p, log, d, u0, L'. cbn [s_hosts s_guest]. split; [now apply list_lookup_insert|]. split; [apply OP|exact PF].
      + exists p, log, d, u, L'. cbn [s_hosts s_guest]. split; [now rewrite list_lookup_insert_ne|]. split; [apply OP|exact PF].
    - destruct (decide (j = i)) as [->|NE].
      + rewrite HI in HJ. injection HJ as EP <- <-. destruct p as [r|e|[] m p|[] p]; cbn [diary] in EP; try discriminate. injection EP as -> <-.
        exists p, log, d, (u ++ [x]), L'. split; [now apply list_lookup_insert|]. auto.
      + exists p, log, d, u, L'. cbn [s_hosts s_guest]. split; [now rewrite list_lookup_insert_ne|auto].
    - destruct (decide (j = i)) as [->|NE].
      + rewrite HI in HJ. injection HJ as EP -> <-. destruct p as [r|e|[] m p|[] p]; cbn [diary] in EP; try discriminate. injection EP as <-.
        exists (p x), (log ++ [x]), d0, u, L'. split; [now apply list_lookup_insert|]. split; [exact OP|]. rewrite <- (assoc_L app). exact PF.
      + exists p, log, d, u, L'. cbn [s_hosts s_guest]. split; [now rewrite list_lookup_insert_ne|auto].
  Qed.
  Lemma sent_first_steps i L m s t : nsteps step m s t -> sent_first i L s -> sent_first i L t.
  Proof. induction 1 as [s|m s s1 t ST _ IH]; intros H; [exact H|]. apply IH. eapply sent_first_step; eauto. Qed.
  Lemma log_starts i L (s : sys msg R S) r rs logs m log : i < length (s_hosts s) -> (forall h, h ∈ s_hosts s -> h.1.2 = []) -> opens i (s_guest s) L ->
    nsteps step m (with_diaries s) (done r (zip rs logs)) -> length logs = length rs -> logs !! i = Some log -> L `prefix_of` tables log.
  Proof.
    intros LI EM OP N LL HL. destruct (lookup_lt_is_Some_2 _ _ LI) as [[[p d] u] HI].
    assert (d = []) as -> by (apply (EM (p, d, u)); eapply elem_of_list_lookup_2; eauto).
    destruct (sent_first_steps i L _ _ _ N) as (p' & log' & d' & u' & L' & H1 & H2 & H3).
    - exists p, [], [], u, L. split; [|split; [exact OP|reflexivity]]. cbn [with_diaries s_hosts]. now rewrite list_lookup_fmap, HI.
    - cbn in H1, H2. subst L'. rewrite app_nil_r in H3. rewrite list_lookup_fmap in H1. destruct (zip rs logs !! i) as [x|] eqn:Ex; [|discriminate]. cbn in H1. injection H1 as E1 <- <-.
      destruct p' as [r'|e|j' m' p'|j' p']; try discriminate. cbn in E1. injection E1 as ->. rewrite app_nil_r in H3.
      apply lookup_zip_with_Some in Ex as (a & b & [= <- <-] & _ & Hb). congruence.
  Qed.
End Log.

(** ** The guest's program *)
Section Program.
  Context {K : Type} `{EqDecision K} (rnd : Qc -> Qc) (pred : loss_kind -> list Qc -> list Qc) (lossf : loss_kind -> dtable K nat -> dtable K (list Qc) -> Qc).
  Context {E X R : Type} (nh : nat) (P : bparams) (gcfg : pcfg K) (it : imp_type) (kind : loss_kind) (dim : nat) (y : dtable K nat) (draw : nat -> nat -> nat -> list nat).
  Context (calc : nat -> X -> dtable K (Qc * Qc) -> res (X * dtable K (cell * cell))) (dec : cell -> res Qc) (gdec : E -> res Qc) (genc : nat -> nat -> nat -> Qc -> res E).
  Context (i : nat) (Hi : i < nh).
  Ltac go0 := repeat match goal with
    | |- silent _ (cbind _ _) => apply silent_bind; [|intros]
    | |- silent _ (cret _) => apply silent_ret
    | |- silent _ (clift _) => apply silent_lift
    | |- silent _ (crecv _) => apply silent_recv
    | |- silent _ (bcast _ _) => apply silent_bcast; exact Logic.I
    | |- silent _ (gather _) => apply silent_gather
    end.
  Ltac go := repeat (progress go0 || match goal with |- silent _ (cfold _ _ _) => apply silent_fold; intros end).
  Lemma guest_fit_says (cfg : pcfg K) gh enc ge t : enc gh = Ok t -> says i (guest_fit (C := cell) (E := E) (R := R) nh cfg it gh enc dec gdec ge) [t] (fun _ => True).
  Proof.
    intros EN.
    assert (BT : forall dbn acc cur, silent i (guest_batch (C := cell) (E := E) (R := R) nh cfg gh dec gdec ge dbn acc cur)).
    { intros dbn acc cur. unfold guest_batch, gather_as. go0. apply silent_fold. intros _ b.
      apply (says_bind i _ _ [] [] (fun m => match m with MGH _ => False | _ => True end)); [|intros m Hm; now apply silent_send].
      apply says_lift. intros m Hm. destruct (list_index _ _) as [l|]; cbn [mbind res_bind] in Hm; [|discriminate]. destruct (best_for_host _ _ _ _ _ _) as [bb|]; cbn [mbind res_bind] in Hm; [|discriminate].
      now injection Hm as <-. }
    assert (LV : forall n st q pos, silent i (guest_levels (C := cell) (E := E) (R := R) nh cfg it gh dec gdec ge n st q pos)).
    { induction n as [|n IH]; intros st q pos; cbn [guest_levels]; [apply silent_ret|]. apply silent_bind; [go|]. intros []. destruct q as [|nd q]; [apply silent_ret|].
      unfold gather_as. go; [apply BT|apply IH]. }
    unfold guest_fit. rewrite EN. apply (says_bind i _ _ [] [t] (fun x => x = t)); [apply says_lift; intros a [= ->]; reflexivity|]. intros a ->.
    apply (says_bind i _ _ [t] [] (fun _ => True)); [now apply says_bcast|]. intros [] _.
    match goal with |- says i ?m [] _ => change (silent i m) end. cbv zeta. go. apply LV.
  Qed.
  Local Notation tree := (guest_tree (C := cell) (E := E) (R := R) rnd nh P gcfg it draw calc dec gdec genc).
  Lemma guest_tree_says (gh : dtable K (list Qc * list Qc)) sx c gs xt : class_grad gh c = Ok gs -> calc (length (bs_trees sx.1)) sx.2 gs = Ok xt ->
    says i (tree gh sx c) [xt.2] (fun sx' => sx'.2 = xt.1 /\ length (bs_trees sx'.1) = S (length (bs_trees sx.1))).
  Proof.
    intros EG EC. unfold guest_tree. rewrite EG. apply (says_bind i _ _ [] [xt.2] (fun x => x = gs)); [apply says_lift; intros a [= ->]; reflexivity|]. intros a ->.
    apply (says_bind i _ _ [] [xt.2] (fun _ => True)); [apply silent_lift|]. intros v _. rewrite EC.
    apply (says_bind i _ _ [] [xt.2] (fun x => x = xt)); [apply says_lift; intros a [= ->]; reflexivity|]. intros a ->.
    apply (says_bind i _ _ [xt.2] [] (fun _ => True)); [now apply guest_fit_says|]. intros ts _.
    apply (says_bind i _ _ [] [] (fun _ => True)); [apply silent_lift|]. intros p _. apply (says_bind i _ _ [] [] (fun _ => True)); [apply silent_lift|]. intros w _.
    apply (says_bind i _ _ [] [] (fun _ => True)); [apply silent_lift|]. intros F _. apply says_ret. cbn. split; [reflexivity|]. rewrite app_length. cbn. lia.
  Qed.
  Lemma trees_say (gh : dtable K (list Qc * list Qc)) l : forall sx gss outs, Forall2 (fun c gs => class_grad gh c = Ok gs) l gss -> calls calc (length (bs_trees sx.1)) sx.2 gss = Ok outs ->
    says i (cfold (tree gh) sx l) outs (fun _ => True).
  Proof.
    induction l as [|c l IH]; intros sx gss outs F CA; inversion F as [|? gs ? gss' E1 F']; subst; cbn [calls] in CA.
    - injection CA as <-. now apply says_ret.
    - destruct (calc (length (bs_trees sx.1)) sx.2 gs) as [xt|] eqn:EC; [|discriminate]. cbn [mbind res_bind] in CA. destruct (calls calc _ xt.1 gss') as [bs|] eqn:EB; [|discriminate]. cbn [mbind res_bind] in CA. injection CA as <-.
      cbn [cfold]. change (xt.2 :: bs) with ([xt.2] ++ bs). eapply says_bind; [eapply guest_tree_says; eauto|]. intros sx' [S1 S2]. cbn beta in S1, S2. eapply IH; [exact F'|]. now rewrite S1, S2.
  Qed.
  Lemma train_opens x0 c F gh gss outs r : b_rounds P = S r -> dt_mapValues (fun _ => Ok (repeat (zq 0) dim)) y = Ok F -> grad_and_hess rnd pred kind y F = Ok gh ->
    Forall2 (fun c gs => class_grad gh c = Ok gs) (seq 0 dim) gss -> calls calc 0 x0 gss = Ok outs ->
    opens i (guest_train_from (C := cell) (E := E) (R := R) rnd pred lossf nh P gcfg it kind dim y draw calc dec gdec genc x0 c) outs.
  Proof.
    intros ER EF EG F2 CA. unfold guest_train_from. rewrite EF, ER. unfold cbind at 1, clift at 1. unfold cbind at 1.
    apply (silent_bcast (E := E) (R := R) i nh (MDim dim) Logic.I _ outs). intros [] _. unfold cbind at 1. cbn [guest_boost bs_F fst]. rewrite EG. unfold cbind at 1, clift at 1. unfold cbind at 1.
    rewrite <- (app_nil_r outs). eapply trees_say; [exact F2|exact CA|]. intros a _. apply opens_nil.
  Qed.
End Program.

(** ** Tables that were computed without an exception *)
Section Inv.
  Context {K V W X : Type} `{EqDecision K}.
  Lemma mapR_each {A B} (f : A -> res B) l ys : mapR f l = Ok ys -> forall x, x ∈ l -> exists y, f x = Ok y.
  Proof.
    revert ys. induction l as [|a l IH]; intros ys HM x Hx; [now apply elem_of_nil in Hx|]. cbn [mapR] in HM. destruct (f a) as [b|] eqn:Ea; [|discriminate].
    destruct (mapR f l) as [bs|] eqn:El; [|discriminate]. apply elem_of_cons in Hx as [->|Hx]; [eauto|]. eapply IH; eauto.
  Qed.
  Lemma dt_map_inv (f : K -> V -> res W) t t' : dt_wf t -> dt_map f t = Ok t' -> dt_wf t' /\ dt_keys t' = dt_keys t /\
    forall k, match tget t k, tget t' k with Some v, Some w => f k v = Ok w | None, None => True | _, _ => False end.
  Proof.
    intros WT HM. destruct (dt_map_rel f (fun k v w => f k v = Ok w) t WT) as (t2 & E2 & W2 & K2 & R2).
    - intros k v Hv. unfold dt_map in HM. destruct (mapR _ (dt_data t)) as [ys|] eqn:EM; [|discriminate]. apply tget_elem in Hv; [|exact WT].
      destruct (mapR_each _ _ _ EM _ Hv) as (y & Ey). cbn in Ey. destruct (f k v) as [w|]; [eauto|discriminate].
    - assert (t2 = t') as -> by congruence. auto.
  Qed.
  Lemma dt_join_inv (f : V -> W -> res X) (t : dtable K V) (o : dtable K W) (t' : dtable K X) : dt_wf o -> dt_join f t o = Ok t' -> dt_wf t' /\
    forall k, match tget t k, tget o k, tget t' k with Some v, Some w, Some x => f v w = Ok x | Some _, Some _, None => False | _, _, Some _ => False | _, _, None => True end.
  Proof.
    intros WO HM. destruct (dt_join_rel f (fun k v w x => f v w = Ok x) t o WO) as (t2 & E2 & W2 & _ & R2).
    - intros k v w Hv Hw. apply tget_elem in Hw; [|exact WO]. unfold dt_join in HM. destruct (foldM _ [] (dt_data o)) as [ys|] eqn:EM; [|discriminate]. clear HM WO. unfold tget in Hv.
      match type of EM with foldM ?F _ _ = _ => set (FF := F) in EM end. revert EM. generalize (@nil (K * X)) as acc. revert Hw. generalize (dt_data o) as l. intros l. induction l as [|[k1 w1] l IH]; intros Hw acc EM; [now apply elem_of_nil in Hw|]. cbn [foldM] in EM. unfold FF at 1 in EM. cbn [fst snd] in EM.
      apply elem_of_cons in Hw as [[= <- <-]|Hw].
      + rewrite Hv in EM. destruct (f v w) as [x|]; [eauto|discriminate].
      + destruct (dict_get k1 (dt_data t)) as [v1|]; [destruct (f v1 w1) as [x1|]; [|discriminate]|]; exact (IH Hw _ EM).
    - assert (t2 = t') as -> by congruence. auto.
  Qed.
End Inv.

(** ** Two calls in a row *)
Section Read.
  Context {K : Type} `{EqDecision K} (sk : privkey) (fresh : nat -> K -> nat -> Z) (mode : em_mode) (rate : Qc) (u : nat -> Qc).
  Local Notation n := (sk_n sk).
  Local Notation calc := (gh_calc n fresh mode rate u).
  (** The calculator keeps the table it was given and the one it has returned. *)
  Definition remembers (x : @em_state K Qc enum) (gs : dtable K (Qc * Qc)) (out : dtable K (cell * cell)) : Prop :=
    exists t nd, x = Some (t, nd) /\ dt_wf t /\ dt_wf nd /\ (forall k, tget t k = gh_row <$> tget gs k) /\
      forall k, match tget nd k, tget out k with Some r, Some c => gh_cells r = Ok c | None, None => True | _, _ => False end.
  Lemma calc_inverse j x gs x' out : dt_wf gs -> match x with Some (p, e) => dt_wf p /\ dt_wf e | None => True end -> calc j x gs = Ok (x', out) ->
    dt_wf out /\ remembers x' gs out /\
    forall p e, x = Some (p, e) -> ~ em_full mode rate (u j) -> forall k c, tget out k = Some c -> exists g o en cg ch, tget gs k = Some g /\ tget p k = Some o /\ tget e k = Some en /\
      c = (CEnc cg, CEnc ch) /\ (d ← get_difference float_sub (gh_row g) o; add_difference pe_add_float d en) = Ok (RSeq [cg; ch]).
  Proof.
    intros WG WX HC. unfold gh_calc in HC. destruct (dt_mapValues (fun c => Ok (gh_row c)) gs) as [t|] eqn:Et; [|discriminate]. cbn [mbind res_bind] in HC.
    destruct (dt_map_inv (fun _ c => Ok (gh_row c)) gs t WG Et) as (Wt & Kt & Rt).
    assert (GT : forall k, tget t k = gh_row <$> tget gs k).
    { intros k. specialize (Rt k). destruct (tget gs k), (tget t k); try contradiction; [|reflexivity]. cbn. congruence. }
    destruct (em_encrypt _ _ _ mode rate j (u j) x t) as [[x1 r2]|] eqn:EE; [|discriminate]. cbn [mbind res_bind fst snd] in HC.
    destruct (dt_mapValues gh_cells r2) as [o2|] eqn:Eo; [|discriminate]. cbn [mbind res_bind] in HC. injection HC as -> ->.
    unfold em_encrypt in EE. match type of EE with mbind _ ?e = _ => destruct e as [nd|] eqn:En; [|discriminate] end. cbn [mbind res_bind] in EE.
    assert (WN : dt_wf nd /\ forall p e, x = Some (p, e) -> ~ em_full mode rate (u j) -> forall k r, tget nd k = Some r -> exists g o en, tget gs k = Some g /\ tget p k = Some o /\ tget e k = Some en /\
      (d ← get_difference float_sub (gh_row g) o; add_difference pe_add_float d en) = Ok r).
    { destruct x as [[p e]|].
      - destruct (match mode with MStrict => true | MBalance => qleb (u j) (rate + FLOAT_ZERO)%Qc | MFast => false end) eqn:EM.
        + split; [now apply (dt_map_inv _ _ _ Wt En)|]. intros p' e' _ NF. destruct NF. destruct mode; simpl; [exact Logic.I|discriminate|now apply qleb_true].
        + destruct WX as [Wp We]. destruct (dt_join (get_difference float_sub) t p) as [df|] eqn:Ed; [|discriminate]. cbn [mbind res_bind] in En.
          destruct (dt_join_inv _ _ _ _ Wp Ed) as (Wd & Rd). destruct (dt_join_inv _ _ _ _ We En) as (Wn & Rn). split; [exact Wn|].
          intros p' e' [= <- <-] _ k r Hr. specialize (Rd k). specialize (Rn k). rewrite Hr in Rn. rewrite GT in Rd.
          destruct (tget df k) as [dk|]; [|contradiction]. destruct (tget e k) as [en|] eqn:Ee; [|contradiction].
          destruct (tget gs k) as [g|] eqn:Eg; cbn [fmap option_fmap option_map] in Rd; [|contradiction]. destruct (tget p k) as [o|] eqn:Ep; [|contradiction].
          exists g, o, en. repeat split; auto. rewrite Rd. exact Rn.
      - split; [now apply (dt_map_inv _ _ _ Wt En)|]. discriminate. }
    destruct WN as [WN RN]. rewrite (dt_mapValues_id t Wt) in EE. cbn [mbind res_bind] in EE. rewrite (dt_mapValues_id nd WN) in EE. cbn [mbind res_bind] in EE. injection EE as <- <-.
    destruct (dt_map_inv (fun _ => gh_cells) nd out WN Eo) as (Wo & Ko & Ro). split; [exact Wo|]. split.
    - exists t, nd. auto.
    - intros p e Hx NF k c Hc. specialize (Ro k). rewrite Hc in Ro. destruct (tget nd k) as [r|] eqn:Er; [|contradiction].
      destruct (RN p e Hx NF k r Er) as (g & o & en & H1 & H2 & H3 & H4). unfold gh_cells in Ro. destruct r as [[|cg [|ch [|]]]|]; try discriminate. injection Ro as <-.
      exists g, o, en, cg, ch. auto 8.
  Qed.

  Context (G : good_sk sk) (Hbig : (2 ^ 1000 <= n)%Z).
  Definition sound_cell (c : enum) : Prop := en_pk c = n /\ Z.gcd (en_ct c) n = 1%Z /\ (0 <= en_exp c <= 179)%Z.
  Lemma float_D_sound s c q : float_D sk 1 s c q -> sound_cell c.
  Proof. intros (He & w & (M & _ & (P1 & P2 & _) & _) & _). repeat split; auto; lia. Qed.
  (** What [read_diff] gives for a plaintext difference. *)
  Lemma read_step c c' a b : sound_cell c -> (qabs a <= 1)%Qc -> (qabs b <= 1)%Qc -> pe_add_float (float_sub b a) c = Ok c' ->
    exists w, read_diff c c' = Ok w /\ (qabs (w - (b - a)) <= p2 (-48))%Qc.
  Proof.
    intros (S1 & S2 & S3) Ha Hb HA.
    assert (Hab : (qabs (b - a) <= Q2Qc (2 # 1))%Qc) by (pose proof (qabs_triangle b (- a)) as TR; rewrite qabs_opp in TR; replace (b + - a)%Qc with (b - a)%Qc in TR by ring; qlra).
    pose proof (fround_err (b - a)) as FE. fold (float_sub b a) in FE. change (p2 (-53)) with (Q2Qc (1 # 9007199254740992)) in FE.
    assert (Hd : (qabs (float_sub b a) <= Q2Qc (3 # 1))%Qc).
    { replace (float_sub b a) with ((float_sub b a - (b - a)) + (b - a))%Qc by ring. eapply Qcle_trans; [apply qabs_triangle|]. qlra. }
    destruct (read_diff_ok sk G Hbig c c' (float_sub b a) S1 S2 S3) as (w & Ew & Nw); [|exact HA|].
    { eapply Qcle_trans; [exact Hd|]. change (zq (2 ^ 32)) with (Q2Qc (4294967296 # 1)). qlra. }
    exists w. split; [exact Ew|]. replace (w - (b - a))%Qc with ((w - float_sub b a) + (float_sub b a - (b - a)))%Qc by ring. eapply Qcle_trans; [apply qabs_triangle|].
    pose proof tiny_small as TS. change (p2 (-60)) with (Q2Qc (1 # 1152921504606846976)) in TS. change (p2 (-50)) with (Q2Qc (1 # 1125899906842624)) in Nw.
    change (p2 (-48)) with (Q2Qc (1 # 281474976710656)). qlra.
  Qed.

  (** From the ciphertexts of two calls, both differences of every row. *)
  Definition readable (gs gs' : dtable K (Qc * Qc)) (out out' : dtable K (cell * cell)) : Prop :=
    forall k g h g' h' c c', tget gs k = Some (g, h) -> tget gs' k = Some (g', h') -> tget out k = Some c -> tget out' k = Some c' ->
    exists a b a' b' v w, c = (CEnc a, CEnc b) /\ c' = (CEnc a', CEnc b') /\ read_diff a a' = Ok v /\ read_diff b b' = Ok w /\
      (qabs (v - (g' - g)) <= p2 (-48))%Qc /\ (qabs (w - (h' - h)) <= p2 (-48))%Qc.
  Definition small (gs : dtable K (Qc * Qc)) : Prop := forall k g h, tget gs k = Some (g, h) -> (qabs g <= 1)%Qc /\ (qabs h <= 1)%Qc.
  Definition sound_table (out : dtable K (cell * cell)) : Prop := forall k c, tget out k = Some c -> exists a b, c = (CEnc a, CEnc b) /\ sound_cell a /\ sound_cell b.
  Lemma calc_read j x gs out gs' x' out' : remembers x gs out -> sound_table out -> small gs -> small gs' -> dt_wf gs' -> ~ em_full mode rate (u j) -> calc j x gs' = Ok (x', out') -> readable gs gs' out out'.
  Proof.
    intros (t & nd & -> & Wt & Wn & GT & RN) ST SG SG' WG NF HC. destruct (calc_inverse j (Some (t, nd)) gs' x' out' WG (conj Wt Wn) HC) as (_ & _ & HD).
    intros k g h g' h' c c' H1 H2 H3 H4. destruct (HD t nd eq_refl NF k c' H4) as (g0 & o & en & cg & ch & E1 & E2 & E3 & -> & E4).
    rewrite H2 in E1. injection E1 as <-. rewrite GT, H1 in E2. cbn in E2. injection E2 as <-. specialize (RN k). rewrite E3, H3 in RN. destruct (ST k c H3) as (a & b & -> & Sa & Sb).
    unfold gh_cells in RN. destruct en as [[|a0 [|b0 [|]]]|]; try discriminate. injection RN as -> ->.
    cbn [gh_row get_difference zip_with fst snd mbind res_bind add_difference zip mapR] in E4.
    destruct (pe_add_float (float_sub g' g) a) as [a'|] eqn:A1; [|discriminate]. destruct (pe_add_float (float_sub h' h) b) as [b'|] eqn:A2; [|discriminate]. cbn [mbind res_bind] in E4. injection E4 as <- <-.
    destruct (SG k g h H1) as [G1 G2]. destruct (SG' k g' h' H2) as [G3 G4].
    destruct (read_step a a' g g' Sa G1 G3 A1) as (v & Ev & Nv). destruct (read_step b b' h h' Sb G2 G4 A2) as (w & Ew & Nw).
    exists a, b, a', b', v, w. auto 8.
  Qed.

  Context (U : list K) (Hf : forall a b c, Z.gcd (fresh a b c) n = 1%Z).
  Definition table_ok (gs : dtable K (Qc * Qc)) : Prop := dt_wf gs /\ (forall k, k ∈ dt_keys gs <-> k ∈ U) /\ small gs.
  Local Notation sok := (st_ok (float_valid 1) (float_D sk 1) (fun _ : K => Some 2)).
  Definition out_table (out : dtable K (cell * cell)) : Prop := dt_wf out /\ (forall k, k ∈ dt_keys out <-> k ∈ U) /\ sound_table out.
  Lemma calc_once j x e gs : sok x e -> (match e with Some (s, Q) => (Z.of_nat s + 1 <= 2 ^ 40)%Z /\ (forall k, Q k <-> k ∈ U) | None => True end) -> table_ok gs ->
    exists x' out s Q, calc j x gs = Ok (x', out) /\ sok x' (Some (s, Q)) /\ s <= (match e with Some (s, _) => S s | None => 0 end) /\ (forall k, Q k <-> k ∈ U) /\ out_table out /\ remembers x' gs out.
  Proof.
    intros SO HE (WG & KG & SG). pose (val := fun k => match tget gs k with Some c => c | None => (zq 0, zq 0) end).
    destruct (calc_step U sk fresh mode rate u (float_D sk 1) (match e with Some (s, _) => S s | None => 0 end) j x e gs (fun k => (val k).1) (fun k => (val k).2)
      (fun call k i p Hp => float_enc_ok sk G 1 ltac:(lia) Hbig fresh call k i p Hf Hp)) as (x' & out & s & Q & EC & SO' & CH & Wo & KO & CE); auto.
    - intros s c p q Hs Hp Hq Hc. apply (float_add_ok sk G 1 ltac:(lia) Hbig s c p q); auto. destruct e as [[s0 Q0]|]; lia.
    - intros k c Hc. apply tget_elem in Hc; [|exact WG]. subst val. cbn beta. rewrite Hc. now destruct c.
    - intros k Hk. apply KG, tget_is_Some in Hk as [[g h] Hc]. subst val. cbn beta. rewrite Hc. exact (SG k g h Hc).
    - assert (QU : s <= (match e with Some (s, _) => S s | None => 0 end) /\ forall k, Q k <-> k ∈ U).
      { destruct CH as [(_ & -> & KQ)|(s0 & Q0 & -> & _ & -> & KQ)]; [split; [lia|exact KQ]|]. split; [lia|]. intros k. rewrite KQ. destruct HE as [_ HE]. rewrite HE. tauto. }
      destruct QU as [QS QU]. exists x', out, s, Q. split; [exact EC|]. split; [exact SO'|]. split; [exact QS|]. split; [exact QU|]. split.
      + split; [exact Wo|]. split; [intros k; rewrite KO; apply QU|]. intros k c Hc. destruct (CE k c Hc) as (_ & a & b & -> & Da & Db). exists a, b. split; [reflexivity|]. split; eapply float_D_sound; eauto.
      + eapply calc_inverse; [exact WG| |exact EC]. destruct x as [[p en]|]; [|exact Logic.I]. destruct e as [[s0 Q0]|]; [|contradiction]. destruct SO as (A & B & _). auto.
  Qed.

  Lemma calls_ok gss : forall j x e, sok x e -> (match e with Some (s, Q) => (Z.of_nat s + Z.of_nat (length gss) <= 2 ^ 40)%Z /\ (forall k, Q k <-> k ∈ U) | None => (Z.of_nat (length gss) <= 2 ^ 40)%Z end) -> Forall table_ok gss ->
    exists outs, calls calc j x gss = Ok outs /\ Forall2 (fun _ out => out_table out) gss outs /\
      (forall gs0 out0, remembers x gs0 out0 -> sound_table out0 -> small gs0 -> ~ em_full mode rate (u j) -> match gss, outs with gs :: _, out :: _ => readable gs0 gs out0 out | _, _ => True end) /\
      forall a gs gs' out out', gss !! a = Some gs -> gss !! S a = Some gs' -> outs !! a = Some out -> outs !! S a = Some out' -> ~ em_full mode rate (u (j + S a)) -> readable gs gs' out out'.
  Proof.
    induction gss as [|gs gss IH]; intros j x e SO HE FA.
    - exists []. split; [reflexivity|]. split; [constructor|]. split; [auto|]. intros a gs gs' out out' L. discriminate.
    - apply Forall_cons in FA as [TO FA]. destruct (calc_once j x e gs SO) as (x' & out & s & Q & EC & SO' & QS & QU & OT & RM); [|exact TO|].
      { destruct e as [[s0 Q0]|]; [|exact Logic.I]. cbn [length] in HE. destruct HE. split; [lia|auto]. }
      destruct (IH (S j) x' (Some (s, Q)) SO') as (outs & EO & F2 & HD & HR); [|exact FA|].
      { split; [|exact QU]. cbn [length] in HE. destruct e as [[s0 Q0]|]; lia. }
      exists (out :: outs). cbn [calls]. rewrite EC. cbn [mbind res_bind fst snd]. rewrite EO. cbn [mbind res_bind]. split; [reflexivity|]. split; [constructor; auto|].
      destruct TO as (WG & KG & SG). split.
      + intros gs0 out0 RM0 ST0 SG0 NF. exact (calc_read j x gs0 out0 gs x' out RM0 ST0 SG0 SG WG NF EC).
      + intros [|a] g1 g2 o1 o2 L1 L2 L3 L4 NF; cbn in L1, L2, L3, L4.
        * injection L1 as <-. injection L3 as <-. replace (j + 1) with (S j) in NF by lia. specialize (HD gs out RM (proj2 (proj2 OT)) SG NF).
          destruct gss as [|gg gss]; [discriminate|]. destruct outs as [|oo outs]; [discriminate|]. cbn in L2, L4. injection L2 as <-. injection L4 as <-. exact HD.
        * replace (j + S (S a)) with (S j + S a) in NF by lia. exact (HR a g1 g2 o1 o2 L1 L2 L3 L4 NF).
  Qed.
End Read.
