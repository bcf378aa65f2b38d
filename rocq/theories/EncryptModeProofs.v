From Verif Require Import PyBase QcBase DTableModel DTableSpec DTableProofs TableRel EncryptModeModel EncryptModeSpec.
Local Open Scope nat_scope.

Section proofs.
  Context {K P C : Type} `{EqDecision K}.
  Context (enc : nat -> K -> nat -> P -> res C) (sub : P -> P -> P) (addc : P -> C -> res C).
  Context (valid : P -> Prop) (D : nat -> C -> P -> Prop) (T : nat) (sh : K -> option nat).
  Hypothesis enc_ok : forall call k i p, valid p -> exists c, enc call k i p = Ok c /\ D 0 c p.
  Hypothesis add_ok : forall s c p q, s < T -> valid p -> valid q -> D s c q ->
    exists c', addc (sub p q) c = Ok c' /\ D (S s) c' p.

  Lemma enc_seq_ok call k i l : Forall valid l -> exists cs, enc_seq enc call k i l = Ok cs /\ Forall2 (D 0) cs l.
  Proof.
    intros Hl. revert i. induction Hl as [|p l Hp _ IH]; intros i; simpl; [exists []; auto|].
    destruct (enc_ok call k i p Hp) as (c & Hc & Dc). destruct (IH (S i)) as (cs & Hcs & Dcs).
    rewrite Hc. cbn [mbind res_bind]. rewrite Hcs. cbn [mbind res_bind]. exists (c :: cs). auto.
  Qed.

  Lemma encrypt_row_ok call k r : Forall valid (row_elems r) ->
    exists e, encrypt_row enc call k r = Ok e /\ row_rel (D 0) e r.
  Proof.
    destruct r as [l|v]; simpl; intros Hv.
    - destruct (enc_seq_ok call k 0 l Hv) as (cs & Hcs & Dcs). rewrite Hcs. cbn [mbind res_bind].
      eexists. split; [done|]. split; [|done]. simpl. by rewrite (Forall2_length _ _ _ Dcs).
    - apply Forall_inv in Hv. destruct (enc_ok call k 0 v Hv) as (c & Hc & Dc). rewrite Hc. cbn [mbind res_bind].
      eexists. split; [done|]. split; [done|]. simpl. auto.
  Qed.

  Lemma add_row_ok s (new old : row P) (e : row C) : s < T ->
    row_shape new = row_shape old -> Forall valid (row_elems new) -> Forall valid (row_elems old) ->
    row_rel (D s) e old ->
    exists d, get_difference sub new old = Ok d /\
      exists e', add_difference addc d e = Ok e' /\ row_rel (D (S s)) e' new.
  Proof.
    intros Hs Hsh Vn Vo [Hse HD].
    destruct new as [ln|vn], old as [lo|vo]; simpl in *; try done.
    - destruct e as [le|ve]; [|done]. simpl in *. eexists. split; [done|]. simpl.
      injection Hsh as Hlen.
      assert (G : exists cs, mapR (fun p => addc p.1 p.2) (zip (zip_with sub ln lo) le) = Ok cs
                             /\ Forall2 (D (S s)) cs ln).
      { clear Hse. revert lo le Hlen Vo HD. induction Vn as [|p ln Hp Vn IH]; intros lo le Hlen Vo HD.
        - destruct lo; [|done]. inversion HD; subst. exists []. auto.
        - destruct lo as [|q lo]; [done|]. inversion HD as [|c ? le' ? Dc HD']; subst.
          inversion Vo; subst. simpl in Hlen.
          destruct (add_ok s c p q Hs Hp) as (c' & Hc' & Dc'); [done|done|].
          destruct (IH lo le') as (cs & Hcs & Dcs); [lia|done|done|].
          simpl. rewrite Hc', Hcs. eexists. split; [done|]. auto. }
      destruct G as (cs & Hcs & Dcs). rewrite Hcs. cbn [mbind res_bind]. eexists. split; [done|].
      split; [|done]. simpl. by rewrite (Forall2_length _ _ _ Dcs).
    - destruct e as [le|ve]; [done|]. simpl in *. eexists. split; [done|]. simpl.
      inversion HD as [|? ? ? ? Dc _]; subst. inversion Vn; inversion Vo; subst.
      destruct (add_ok s ve vn vo) as (c' & Hc' & Dc'); try done.
      rewrite Hc'. cbn [mbind res_bind]. eexists. split; [done|]. split; [done|]. simpl. auto.
  Qed.

  (** The invariant kept between calls. *)
  Definition st_ok (st : em_state) (e : option (nat * (K -> Prop))) : Prop :=
    match st, e with
    | None, None => True
    | Some (prev, penc), Some (s, Q) =>
        dt_wf prev /\ dt_wf penc /\ (forall k, k ∈ dt_keys penc <-> Q k) /\
        (forall k r, tget prev k = Some r -> row_shape r = sh k /\ Forall valid (row_elems r)) /\
        (forall k r, tget penc k = Some r -> exists p, tget prev k = Some p /\ row_rel (D s) r p)
    | _, _ => False
    end.

  Lemma em_step mode rate call u st e t :
    st_ok st e -> dt_wf t -> (forall k r, tget t k = Some r -> row_shape r = sh k /\ Forall valid (row_elems r)) ->
    (~ em_full mode rate u -> (match e with Some (s, _) => S s | None => 0 end) <= T) ->
    exists x out st', em_encrypt enc sub addc mode rate call u st t = Ok (st', out) /\ dt_wf out /\
      st_ok st' (Some x) /\ out_ok D t x out /\
      ((e = None \/ em_full mode rate u) /\ x = (0, fun k => k ∈ dt_keys t) \/
       exists s Q, e = Some (s, Q) /\ ~ em_full mode rate u /\ x = (S s, fun k => k ∈ dt_keys t /\ Q k)) /\
      x.1 <= (match e with Some (s, _) => S s | None => 0 end).
  Proof.
    intros Hst Hcon Ht HT.
    destruct (dt_map_rel (encrypt_row enc call) (fun k r e => row_rel (D 0) e r) t Hcon) as (nd & Hnd & Wnd & Knd & Rnd).
      { intros k r Hr. apply encrypt_row_ok. by apply (Ht k). }
      assert (Kiff : forall k, k ∈ dt_keys nd <-> k ∈ dt_keys t) by (intros k; by rewrite Knd).
      assert (ROW : forall k r, tget nd k = Some r -> exists p, tget t k = Some p /\ row_rel (D 0) r p).
      { intros k r Hr. specialize (Rnd k). rewrite Hr in Rnd. destruct (tget t k) as [p|]; [|done]. eauto. }
      assert (FULL : st_ok (Some (t, nd)) (Some (0, fun k => k ∈ dt_keys t)) /\
                     out_ok D t (0, fun k => k ∈ dt_keys t) nd).
      { split; [|split; [exact Kiff|exact ROW]]. repeat split; try assumption; try apply Kiff.
        - by apply (Ht k). - by apply (Ht k). }
      destruct FULL as [F1 F2].
      destruct st as [[prev penc]|], e as [[s Q]|]; try done.
      - destruct (decide (match mode with MStrict => true | MBalance => qleb u (rate + FLOAT_ZERO)%Qc | MFast => false end = true)) as [Hf|Hf].
        + exists (0, fun k => k ∈ dt_keys t), nd, (Some (t, nd)). split.
          { unfold em_encrypt. rewrite Hf, Hnd. cbn [mbind res_bind].
            rewrite dt_mapValues_id by done. cbn [mbind res_bind]. by rewrite dt_mapValues_id by done. }
          split; [exact Wnd|]. split; [exact F1|]. split; [exact F2|]. split; [|simpl; lia].
          left. split; [|done]. right. destruct mode; simpl; [done|done|by apply qleb_true].
        + assert (NF : ~ em_full mode rate u) by (destruct mode; simpl in *; [congruence|tauto|]; intros Hq; apply Hf; by apply qleb_true).
          specialize (HT NF). destruct Hst as (Wp & We & Kp & Vp & Rp).
          destruct (dt_join_rel (get_difference sub)
                      (fun k n o d => get_difference sub n o = Ok d) t prev Wp) as (df & Hdf & Wdf & Kdf & Rdf).
          { intros k n o Hn Ho. destruct (Ht k n Hn) as [S1 V1], (Vp k o Ho) as [S2 V2].
            destruct n as [ln|vn], o as [lo|vo]; simpl in *; try congruence; eauto. }
          destruct (dt_join_rel (add_difference addc)
                      (fun k d e e' => exists n, tget t k = Some n /\ row_rel (D (S s)) e' n) df penc We)
            as (nw & Hnw & Wnw & Knw & Rnw).
          { intros k d ec Hd Hec. destruct (Rp k ec Hec) as (o & Ho & Ro).
            specialize (Rdf k). rewrite Hd, Ho in Rdf. destruct (tget t k) as [n|] eqn:En; [|done].
            destruct (Ht k n En) as [S1 V1], (Vp k o Ho) as [S2 V2].
            destruct (add_row_ok s n o ec) as (d' & Hd' & e' & He' & Re'); try done.
            { congruence. }
            rewrite Rdf in Hd'. injection Hd' as <-. eauto. }
          assert (KK : forall k, k ∈ dt_keys nw <-> k ∈ dt_keys t /\ Q k).
          { intros k. rewrite <- Kp, <- !tget_is_Some. specialize (Rnw k). specialize (Rdf k). split.
            - intros [x Hx]. rewrite Hx in Rnw. destruct (tget df k) as [d|] eqn:Ed; [|done].
              destruct (tget penc k) as [ec|]; [|done]. destruct (tget t k) as [n|]; [|done]. by split; eexists.
            - intros [[n Hn] [ec Hec]]. rewrite Hn in Rdf. rewrite Hec in Rnw.
              destruct (Rp k ec Hec) as (o & Ho & _). rewrite Ho in Rdf.
              destruct (tget df k) as [d|]; [|done]. destruct (tget nw k) as [x|]; [by eexists|done]. }
          assert (RR : forall k r, tget nw k = Some r -> exists p, tget t k = Some p /\ row_rel (D (S s)) r p).
          { intros k r Hr. specialize (Rnw k). rewrite Hr in Rnw. destruct (tget df k); [|done].
            destruct (tget penc k); [|done]. exact Rnw. }
          exists (S s, fun k => k ∈ dt_keys t /\ Q k), nw, (Some (t, nw)). split.
          { unfold em_encrypt. apply not_true_is_false in Hf. rewrite Hf, Hdf. cbn [mbind res_bind]. rewrite Hnw.
            cbn [mbind res_bind]. rewrite dt_mapValues_id by done. cbn [mbind res_bind]. by rewrite dt_mapValues_id by done. }
          split; [exact Wnw|]. split. { split; [done|]. split; [done|]. split; [exact KK|]. split; [exact Ht|exact RR]. }
          split; [split; [exact KK|exact RR]|]. split; [|simpl; lia].
          right. exists s, Q. split; [done|]. done.
      - exists (0, fun k => k ∈ dt_keys t), nd, (Some (t, nd)). split.
        { unfold em_encrypt. rewrite Hnd. cbn [mbind res_bind].
          rewrite dt_mapValues_id by done. cbn [mbind res_bind]. by rewrite dt_mapValues_id by done. }
        split; [exact Wnd|]. split; [exact F1|]. split; [exact F2|]. split; [|simpl; lia].
        left. split; [by left|done].
  Qed.

  Lemma em_history mode rate call st e hist :
    st_ok st e -> hist_ok valid sh hist ->
    (match e with Some (s, _) => s | None => 0 end) + length hist <= T ->
    exists l outs, em_expect mode rate e hist l /\ em_run enc sub addc mode rate call st hist = Ok outs /\
      length l = length hist /\ length outs = length hist /\
      forall i u t x out, hist !! i = Some (u, t) -> l !! i = Some x -> outs !! i = Some out -> 
        x.1 <= (match e with Some (s, _) => S s | None => 0 end) + i /\ out_ok D t x out.
  Proof.
    revert call st e. induction hist as [|[u t] hist IH]; intros call st e Hst Hh HT.
    - exists [], []. simpl. split; [constructor|]. repeat (split; [done|]). intros; done.
    - apply Forall_cons in Hh as [[Hcon Ht] Hh]. simpl in Hcon, Ht. apply constructed_wf in Hcon.
      destruct (em_step mode rate call u st e t Hst Hcon Ht) as (x & out & st' & Henc & _ & Hst' & Hout & Hex & Hx1); [intros _; simpl in HT; destruct e as [[s Q]|]; lia|].
      assert (Hex' : forall l, em_expect mode rate (Some x) hist l -> em_expect mode rate e ((u, t) :: hist) (x :: l)).
      { intros l Hl. destruct Hex as [[Hf ->]|(s & Q & -> & Hf & ->)]; by constructor. }
      destruct x as [s' Q']. simpl in Hx1.
      destruct (IH (S call) st' (Some (s', Q')) Hst' Hh) as (l & outs & HE & HR & L1 & L2 & HI).
      { simpl in *. destruct e as [[s Q]|]; lia. }
      exists ((s', Q') :: l), (out :: outs). split; [by apply Hex'|]. simpl. rewrite Henc. cbn [mbind res_bind].
      rewrite HR. cbn [mbind res_bind]. split; [done|]. split; [by rewrite L1|]. split; [by rewrite L2|].
      intros [|i] u' t' x' out' H1 H2 H3; simpl in *; simplify_eq.
      + split; [simpl; destruct e as [[s Q]|]; lia|exact Hout].
      + destruct (HI i u' t' x' out' H1 H2 H3) as [B O]. split; [|exact O].
        destruct e as [[s Q]|]; lia.
  Qed.
End proofs.
