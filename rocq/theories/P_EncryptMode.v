(** C19, C20: the encryption-mode calculator over histories of calls. *)
From Verif Require Import PyBase QcBase DTableModel DTableSpec DTableProofs FixedPointModel PaillierModel PaillierSpec EncNumProofs
  PaillierProofs NumTheory P_Paillier EncryptModeModel EncryptModeSpec EncryptModeProofs EncryptModePaillier.
From Coq Require Import Lia.
Local Open Scope Z_scope.

Section hist.
  Context {K : Type} `{EqDecision K}.

  (** All tables of a history hold the same keys. *)
  Definition same_keys {P} (hist : list (Qc * dtable K (row P))) : Prop :=
    exists ks : K -> Prop, Forall (fun ut => forall k, k ∈ dt_keys ut.2 <-> ks k) hist.

  (** The table [out] has exactly the keys [ks], and its rows have the shape of the rows of [t] with elements
      related by [R]. *)
  Definition table_match {P C} (R : C -> P -> Prop) (ks : K -> Prop) (t : dtable K (row P)) (out : dtable K (row C)) : Prop :=
    (forall k, k ∈ dt_keys out <-> ks k) /\
    (forall k, ks k -> k ∈ dt_keys t) /\
    forall k r, tget out k = Some r -> exists p, tget t k = Some p /\ row_rel R r p.

  Lemma expect_same {P} mode rate (ks : K -> Prop) (hist : list (Qc * dtable K (row P))) prev l :
    em_expect mode rate prev hist l ->
    Forall (fun ut => forall k, k ∈ dt_keys ut.2 <-> ks k) hist ->
    (match prev with Some (_, Q) => forall k, Q k <-> ks k | None => True end) ->
    Forall (fun x => forall k, x.2 k <-> ks k) l.
  Proof.
    induction 1 as [|prev u t hist l Hc HE IH|s Q u t hist l Hc HE IH]; intros HF Hp; [constructor| |];
      apply Forall_cons in HF as [Hk HF]; simpl in Hk.
    - constructor; [exact Hk|]. apply IH; [exact HF|exact Hk].
    - constructor; [|apply IH; [exact HF|]]; intros k; simpl; rewrite Hk; specialize (Hp k); tauto.
  Qed.

  Lemma expect_sub {P} mode rate (hist : list (Qc * dtable K (row P))) prev l :
    em_expect mode rate prev hist l ->
    forall i u t (x : nat * (K -> Prop)), hist !! i = Some (u, t) -> l !! i = Some x -> forall k, x.2 k -> k ∈ dt_keys t.
  Proof.
    induction 1 as [|prev u t hist l Hc HE IH|s Q u t hist l Hc HE IH]; intros [|i] u' t' x Hi Hx k Hk; simplify_eq/=;
      try done; try tauto; eauto.
  Qed.

  Lemma expect_fast {P} rate (hist : list (Qc * dtable K (row P))) prev l :
    em_expect MFast rate prev hist l ->
    forall i x, l !! i = Some x -> forall k, x.2 k <->
      (match prev with Some (_, Q) => Q k | None => True end) /\
      (forall j u t, (j <= i)%nat -> hist !! j = Some (u, t) -> k ∈ dt_keys t).
  Proof.
    induction 1 as [|prev u t hist l Hc HE IH|s Q u t hist l Hc HE IH]; intros i x Hx k; [done| |].
    - destruct Hc as [->|[]]. destruct i as [|i]; simplify_eq/=.
      + split; [|intros [_ H]; by apply (H 0%nat u t)]. intros Hk. split; [done|].
        intros [|j] u' t' Hj Ht; [by simplify_eq/=|lia].
      + rewrite (IH i x Hx k). split.
        * intros [Hk H]. split; [done|]. intros [|j] u' t' Hj Ht; [by simplify_eq/=|]. apply (H j u' t'); [lia|done].
        * intros [_ H]. split; [by apply (H 0%nat u t); [lia|]|]. intros j u' t' Hj Ht. apply (H (S j) u' t'); [lia|done].
    - destruct i as [|i]; simplify_eq/=.
      + split.
        * intros [Hk HQ]. split; [done|]. intros [|j] u' t' Hj Ht; [by simplify_eq/=|lia].
        * intros [HQ H]. split; [by apply (H 0%nat u t)|done].
      + rewrite (IH i x Hx k). split.
        * intros [[Hk HQ] H]. split; [done|]. intros [|j] u' t' Hj Ht; [by simplify_eq/=|]. apply (H j u' t'); [lia|done].
        * intros [HQ H]. split; [split; [by apply (H 0%nat u t); [lia|]|done]|].
          intros j u' t' Hj Ht. apply (H (S j) u' t'); [lia|done].
  Qed.
End hist.

Section int.
  Context {K : Type} `{EqDecision K} (n : Z) (sk : privkey) (key : keypair n sk)
    (fresh : nat -> K -> nat -> Z) (fresh_ok : forall call k i, Z.gcd (fresh call k i) n = 1).

  Lemma int_history mode rate sh (hist : list (Qc * dtable K (row Z))) :
    hist_ok (fun z => 2 * Z.abs z <= pk_max_int n) sh hist ->
    exists l outs, em_expect mode rate None hist l /\
      em_run (pe_enc_int n fresh) Z.sub pe_add_int mode rate 0 None hist = Ok outs /\
      length l = length hist /\ length outs = length hist /\
      forall i u t x out, hist !! i = Some (u, t) -> l !! i = Some x -> outs !! i = Some out ->
        table_match (fun c z => sk_decrypt sk (CEnc c) = Ok (PyInt z)) x.2 t out.
  Proof.
    intros HH. destruct (keypair_good n sk key) as [G En]. subst n.
    destruct (em_history (pe_enc_int (sk_n sk) fresh) Z.sub pe_add_int (int_valid sk) (int_D sk) (length hist) sh)
      with (mode := mode) (rate := rate) (call := 0%nat) (st := @None (dtable K (row Z) * dtable K (row enum))) (e := @None (nat * (K -> Prop))) (hist := hist)
      as (l & outs & HE & HR & L1 & L2 & HO); try done.
    - intros. by apply int_enc_ok.
    - intros. by apply (int_add_ok sk G).
    - exists l, outs. split; [exact HE|]. split; [exact HR|]. split; [exact L1|]. split; [exact L2|].
      intros i u t x out Hi Hx Ho. destruct (HO i u t x out Hi Hx Ho) as [_ [O1 O2]].
      split; [exact O1|]. split; [by eapply expect_sub|].
      intros k r Hr. destruct (O2 k r Hr) as (p & Hp & [Sh F2]). exists p. split; [exact Hp|]. split; [exact Sh|].
      eapply Forall2_impl; [exact F2|]. intros c z Hc. by apply (int_D_dec sk G x.1).
  Qed.

  (** C19 on integers. Every call history over tables with one key set, in every mode and for every random
      draw: the calls succeed, and each returned table has the keys of its input and decrypts to it exactly. *)
  Theorem C19_int mode rate sh (hist : list (Qc * dtable K (row Z))) :
    hist_ok (fun z => 2 * Z.abs z <= pk_max_int n) sh hist -> same_keys hist ->
    exists outs, em_run (pe_enc_int n fresh) Z.sub pe_add_int mode rate 0 None hist = Ok outs /\
      Forall2 (fun ut out => table_match (fun c z => sk_decrypt sk (CEnc c) = Ok (PyInt z))
                 (fun k => k ∈ dt_keys ut.2) ut.2 out) hist outs.
  Proof.
    intros HH [ks HS]. destruct (int_history mode rate sh hist HH) as (l & outs & HE & HR & L1 & L2 & HO).
    exists outs. split; [exact HR|]. apply Forall2_same_length_lookup. split; [done|].
    intros i [u t] out Hi Ho. destruct (lookup_lt_is_Some_2 l i) as [x Hx]; [apply lookup_lt_Some in Hi; lia|].
    destruct (HO i u t x out Hi Hx Ho) as (M1 & M2 & M3).
    pose proof (expect_same mode rate ks hist None l HE HS I) as HF. rewrite Forall_lookup in HF. specialize (HF i x Hx).
    rewrite Forall_lookup in HS. specialize (HS i _ Hi). simpl in *.
    split; [|split; [done|exact M3]]. intros k. rewrite M1, HF, HS. done.
  Qed.

  (** C20. With changing key sets the calls still succeed without an error; the keys of each returned table are
      those of the current input that were present in every call since the last full encryption. *)
  Theorem C20_keys mode rate sh (hist : list (Qc * dtable K (row Z))) :
    hist_ok (fun z => 2 * Z.abs z <= pk_max_int n) sh hist ->
    exists l outs, em_expect mode rate None hist l /\
      em_run (pe_enc_int n fresh) Z.sub pe_add_int mode rate 0 None hist = Ok outs /\
      length l = length hist /\ length outs = length hist /\
      forall i u t x out, hist !! i = Some (u, t) -> l !! i = Some x -> outs !! i = Some out ->
        table_match (fun c z => sk_decrypt sk (CEnc c) = Ok (PyInt z)) x.2 t out.
  Proof. exact (int_history mode rate sh hist). Qed.

  (** In fast mode these are the keys present in every call so far. *)
  Theorem C20_fast_keys rate sh (hist : list (Qc * dtable K (row Z))) :
    hist_ok (fun z => 2 * Z.abs z <= pk_max_int n) sh hist ->
    exists outs, em_run (pe_enc_int n fresh) Z.sub pe_add_int MFast rate 0 None hist = Ok outs /\
      length outs = length hist /\
      forall i u t out, hist !! i = Some (u, t) -> outs !! i = Some out ->
        table_match (fun c z => sk_decrypt sk (CEnc c) = Ok (PyInt z))
          (fun k => forall j u' t', (j <= i)%nat -> hist !! j = Some (u', t') -> k ∈ dt_keys t') t out.
  Proof.
    intros HH. destruct (int_history MFast rate sh hist HH) as (l & outs & HE & HR & L1 & L2 & HO).
    exists outs. split; [exact HR|]. split; [exact L2|]. intros i u t out Hi Ho.
    destruct (lookup_lt_is_Some_2 l i) as [x Hx]; [apply lookup_lt_Some in Hi; lia|].
    destruct (HO i u t x out Hi Hx Ho) as (M1 & M2 & M3). pose proof (expect_fast rate hist None l HE i x Hx) as HF.
    split; [intros k; rewrite M1, HF; tauto|]. split; [|exact M3]. intros k Hk. by apply (Hk i u t).
  Qed.
End int.
Print Assumptions C19_int.
Print Assumptions C20_keys.
Print Assumptions C20_fast_keys.

(** C19 on floats of absolute value at most B (the float subtraction of the modes is rounded): the value read
    back at call number i differs from the input by at most (i + 2) * 2^-47 * B, in every mode. *)
Theorem C19_float {K} `{EqDecision K} n sk (key : keypair n sk) (fresh : nat -> K -> nat -> Z) B mode rate sh
    (hist : list (Qc * dtable K (row Qc))) :
  (forall call k i, Z.gcd (fresh call k i) n = 1) -> 2 ^ 1000 <= n -> 1 <= B <= 2 ^ 30 ->
  Z.of_nat (length hist) <= 2 ^ 40 ->
  hist_ok (fun q => (qabs q <= zq B)%Qc) sh hist -> same_keys hist ->
  exists outs, em_run (pe_enc_float n fresh) float_sub pe_add_float mode rate 0 None hist = Ok outs /\
    length outs = length hist /\
    forall i u t out, hist !! i = Some (u, t) -> outs !! i = Some out ->
      table_match (fun c q => exists v, sk_decrypt sk (CEnc c) = Ok v /\
          (qabs (FixedPointModel.num v - q) <= zq (Z.of_nat i + 2) * p2 (-47) * zq B)%Qc)
        (fun k => k ∈ dt_keys t) t out.
Proof.
  intros Hf Hn HB HL HH [ks HS]. destruct (keypair_good n sk key) as [G En]. subst n.
  assert (HV : Forall (fun ut => forall k r, tget ut.2 k = Some r -> Forall (float_valid B) (row_elems r)) hist).
  { eapply Forall_impl; [exact HH|]. intros ut [_ Hut] k r Hr. by apply (Hut k r). }
  destruct (em_history (pe_enc_float (sk_n sk) fresh) float_sub pe_add_float (float_valid B) (float_D sk B) (length hist) sh)
    with (mode := mode) (rate := rate) (call := 0%nat) (st := @None (dtable K (row Qc) * dtable K (row enum))) (e := @None (nat * (K -> Prop))) (hist := hist)
    as (l & outs & HE & HR & L1 & L2 & HO); try done.
  - intros. by apply float_enc_ok.
  - intros. apply float_add_ok with (q := q); try done. lia.
  - exists outs. split; [exact HR|]. split; [exact L2|]. intros i u t out Hi Ho.
    destruct (lookup_lt_is_Some_2 l i) as [x Hx]; [apply lookup_lt_Some in Hi; lia|].
    destruct (HO i u t x out Hi Hx Ho) as [Hx1 [M1 M2]].
    pose proof (expect_same mode rate ks hist None l HE HS I) as HF. rewrite Forall_lookup in HF. specialize (HF i x Hx).
    rewrite Forall_lookup in HS. specialize (HS i _ Hi). simpl in *.
    split; [intros k; by rewrite M1, HF, HS|]. split; [done|]. intros k r Hr.
    destruct (M2 k r Hr) as (p & Hp & [Sh F2]). exists p. split; [exact Hp|]. split; [exact Sh|].
    rewrite Forall_lookup in HV. specialize (HV i _ Hi k p Hp).
    apply Forall2_same_length_lookup. split; [by eapply Forall2_length|]. intros j c q Hc Hq.
    assert (HD : float_D sk B x.1 c q) by (eapply Forall2_lookup_lr; eauto).
    rewrite Forall_lookup in HV. specialize (HV j q Hq).
    destruct (float_D_dec sk G B HB x.1 c q) as (v & Hv & Ev); try done.
    { apply lookup_lt_Some in Hi. lia. }
    exists v. split; [exact Hv|]. eapply Qcle_trans; [exact Ev|]. unfold drift.
    assert (A : (zq (Z.of_nat (S x.1) + 1) <= zq (Z.of_nat i + 2))%Qc) by (apply zq_le; lia).
    assert (Bp : (zq 0 < zq B)%Qc) by (apply zq_lt; lia). pose proof (p2_pos (-47)).
    set (X := zq (Z.of_nat (S x.1) + 1)) in *. set (Y := zq (Z.of_nat i + 2)) in *.
    assert (W : (zq 0 <= p2 (-47) * zq B)%Qc) by (rewrite zq_0 in *; qnra). rewrite zq_0 in *.
    rewrite <- !Qcmult_assoc. set (Z := (p2 (-47) * zq B)%Qc) in *. qnra.
Qed.
Print Assumptions C19_float.

(** Concrete histories with the key 11413 = 101 * 113. *)
Definition ex_fresh (call : nat) (k : Z) (i : nat) : Z := 7.
Definition ex_hist_same : list (Qc * dtable Z (row Z)) :=
  [(zq 1, DT [(1, RVal 5); (2, RSeq [3; -4])]); (zq 0, DT [(1, RVal (-6)); (2, RSeq [1900; 0])]);
   (zq 1, DT [(2, RSeq [-1; -1]); (1, RVal 0)])].
Definition ex_hist_new : list (Qc * dtable Z (row Z)) :=
  [(zq 1, DT [(1, RVal 5); (2, RVal 6)]); (zq 1, DT [(2, RVal 7); (3, RVal 8)])].
Definition ex_read (r : res (list (dtable Z (row enum)))) : option (list (list (Z * list (res pynum)))) :=
  match r with
  | Ok ts => Some (map (fun t => map (fun kr => (kr.1, map (fun c => sk_decrypt sk_small (CEnc c)) (row_elems kr.2))) (dt_data t)) ts)
  | Err _ => None
  end.

Example C19_ex :
  (forall call k i, Z.gcd (ex_fresh call k i) 11413 = 1) /\
  hist_ok (fun z => 2 * Z.abs z <= pk_max_int 11413) (fun k => if k =? 1 then None else Some 2%nat) ex_hist_same /\
  same_keys ex_hist_same /\
  ex_read (em_run (pe_enc_int 11413 ex_fresh) Z.sub pe_add_int MFast (zq 0) 0 None ex_hist_same) =
    Some [[(1, [Ok (PyInt 5)]); (2, [Ok (PyInt 3); Ok (PyInt (-4))])];
          [(1, [Ok (PyInt (-6))]); (2, [Ok (PyInt 1900); Ok (PyInt 0)])];
          [(1, [Ok (PyInt 0)]); (2, [Ok (PyInt (-1)); Ok (PyInt (-1))])]].
Proof.
  split; [intros; vm_compute; reflexivity|]. split; [|split].
  - assert (M : pk_max_int 11413 = 3803) by (vm_compute; reflexivity). rewrite M.
    unfold same_keys, hist_ok, ex_hist_same, ex_hist_new; repeat apply Forall_cons_2; try apply Forall_nil_2; (split; [apply wf_constructed; unfold dt_wf; simpl; apply (bool_decide_unpack _); vm_compute; reflexivity|]);
      intros k r Hr; cbn [snd tget dt_data dict_get] in Hr; unfold tget in Hr; simpl in Hr; repeat case_match; simplify_eq/=;
      (split; [reflexivity|]); repeat constructor; vm_compute; discriminate.
  - exists (fun k => k = 1 \/ k = 2). unfold same_keys, hist_ok, ex_hist_same, ex_hist_new; repeat apply Forall_cons_2; try apply Forall_nil_2; intros k; unfold dt_keys; cbn;
      rewrite ?elem_of_cons, ?elem_of_nil; tauto.
  - vm_compute. reflexivity.
Qed.

Example C19_float_ex : exists n sk, keypair n sk /\ 2 ^ 1000 <= n /\
  (forall call k i, Z.gcd ((fun (_ : nat) (_ : Z) (_ : nat) => 1) call k i) n = 1) /\
  let hist := [(zq 1, DT [(1, RVal (Q2Qc (1 # 3)))]); (zq 1, DT [(1, RVal (Q2Qc (-7 # 2)))])] in
  hist_ok (fun q => (qabs q <= zq 4)%Qc) (fun _ : Z => None) hist /\ same_keys hist.
Proof.
  destruct (prime_above_Z (2 ^ 1000)) as (p & Hp & Pp). destruct (prime_above_Z p) as (q & Hq & Pq).
  destruct (mk_privkey_ok p q Pp Pq ltac:(lia)) as (sk & Hsk & _).
  exists (p * q), sk. split; [exists p, q; auto|]. split; [assert (0 < 2 ^ 1000) by reflexivity; nia|].
  split; [intros; apply Z.gcd_1_l|]. cbv zeta. split.
  - unfold hist_ok. repeat apply Forall_cons_2; try apply Forall_nil_2;
      (split; [apply wf_constructed; unfold dt_wf; simpl; apply (bool_decide_unpack _); vm_compute; reflexivity|]);
      intros k r Hr; unfold tget in Hr; simpl in Hr; repeat case_match; simplify_eq/=;
      (split; [reflexivity|]); repeat constructor; vm_compute; discriminate.
  - exists (fun k => k = 1). repeat apply Forall_cons_2; try apply Forall_nil_2; intros k; unfold dt_keys; cbn;
      rewrite ?elem_of_cons, ?elem_of_nil; tauto.
Qed.

(** The row of key 3 is lost in fast mode although the call succeeds; strict mode returns it. *)
Theorem C20_all_rows_refuted : exists hist : list (Qc * dtable Z (row Z)),
  hist_ok (fun z => 2 * Z.abs z <= pk_max_int 11413) (fun _ => None) hist /\
  ex_read (em_run (pe_enc_int 11413 ex_fresh) Z.sub pe_add_int MFast (zq 0) 0 None hist) =
    Some [[(1, [Ok (PyInt 5)]); (2, [Ok (PyInt 6)])]; [(2, [Ok (PyInt 7)])]] /\
  ex_read (em_run (pe_enc_int 11413 ex_fresh) Z.sub pe_add_int MStrict (zq 0) 0 None hist) =
    Some [[(1, [Ok (PyInt 5)]); (2, [Ok (PyInt 6)])]; [(2, [Ok (PyInt 7)]); (3, [Ok (PyInt 8)])]].
Proof.
  exists ex_hist_new. split; [|split; vm_compute; reflexivity].
  assert (M : pk_max_int 11413 = 3803) by (vm_compute; reflexivity). rewrite M.
  unfold same_keys, hist_ok, ex_hist_same, ex_hist_new; repeat apply Forall_cons_2; try apply Forall_nil_2; (split; [apply wf_constructed; unfold dt_wf; simpl; apply (bool_decide_unpack _); vm_compute; reflexivity|]);
    intros k r Hr; unfold tget in Hr; simpl in Hr; repeat case_match; simplify_eq/=;
    (split; [reflexivity|]); repeat constructor; vm_compute; discriminate.
Qed.
Print Assumptions C20_all_rows_refuted.
