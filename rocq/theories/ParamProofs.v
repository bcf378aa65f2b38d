(** Proofs about the parameter checks. *)
From Verif Require Import ParamModel ParamSpec.
Local Open Scope string_scope.
Local Open Scope Z_scope.

Lemma bind_ok {A B} (m : res A) (f : A -> res B) y : (x ← m; f x) = Ok y <-> exists x, m = Ok x /\ f x = Ok y.
Proof.
  destruct m as [x|e]; cbn; [|by split; [|intros (?&?&_)]]. split; [by exists x|]. by intros (?&[= <-]&?).
Qed.
Lemma bind_err {A B} (m : res A) (f : A -> res B) e : (x ← m; f x) = Err e ->
  m = Err e \/ exists x, m = Ok x /\ f x = Err e.
Proof. destruct m as [x|e']; cbn; [|intros [= <-]; by left]. right. by exists x. Qed.
Lemma unit_ok (m : res unit) : (exists x, m = Ok x) <-> m = Ok tt.
Proof. split; [intros [[] H]; exact H|]. by exists tt. Qed.

(** * Words *)
Lemma lower_char_nat c : Ascii.nat_of_ascii (lower_char c) =
  (if ((65 <=? Ascii.nat_of_ascii c) && (Ascii.nat_of_ascii c <=? 90))%nat then Ascii.nat_of_ascii c + 32 else Ascii.nat_of_ascii c)%nat.
Proof.
  unfold lower_char. destruct ((65 <=? _) && _)%nat eqn:E; [|done]. apply andb_prop in E as [E1 E2].
  apply Nat.leb_le in E1, E2. apply Ascii.nat_ascii_embedding. lia.
Qed.
Lemma ascii_inj c d : Ascii.nat_of_ascii c = Ascii.nat_of_ascii d -> c = d.
Proof. intros H. by rewrite <- (Ascii.ascii_nat_embedding c), <- (Ascii.ascii_nat_embedding d), H. Qed.

(** No upper-case letter. *)
Fixpoint lowercase (s : string) : bool :=
  match s with
  | EmptyString => true
  | String c s' => negb ((65 <=? Ascii.nat_of_ascii c) && (Ascii.nat_of_ascii c <=? 90))%nat && lowercase s'
  end.
Lemma lower_letter c d : ((65 <=? Ascii.nat_of_ascii d) && (Ascii.nat_of_ascii d <=? 90))%nat = false ->
  lower_char c = d <-> same_letter c d.
Proof.
  intros Hd. split.
  - intros <-. pose proof (lower_char_nat c) as E. destruct ((65 <=? Ascii.nat_of_ascii c) && _)%nat eqn:Ec.
    + apply andb_prop in Ec as [E1 E2]. apply Nat.leb_le in E1, E2. apply same_upper; [lia|done].
    + unfold lower_char. rewrite Ec. constructor.
  - intros H. apply ascii_inj. rewrite lower_char_nat. destruct H as [c|c d Hc E].
    + by rewrite Hd.
    + rewrite E. destruct ((65 <=? Ascii.nat_of_ascii c) && _)%nat eqn:Ec; [done|].
      apply andb_false_iff in Ec as [Ec|Ec]; apply Nat.leb_gt in Ec; lia.
Qed.
Lemma lower_word s w : lowercase w = true -> lower s = w <-> same_word s w.
Proof.
  revert w. induction s as [|c s IH]; intros w Hw; cbn.
  - split; [intros <-; constructor|]. intros H. by inversion H.
  - destruct w as [|d w]; [split; [done|intros H; inversion H]|].
    cbn in Hw. apply andb_prop in Hw as [Hd Hw]. apply negb_true_iff in Hd. split.
    + intros [= E1 E2]. constructor; [by apply lower_letter|]. by apply IH.
    + intros H. inversion H as [|???? H1 H2]; subst. f_equal; [by apply lower_letter|]. by apply IH.
Qed.

Lemma change_lower_ok v valid v' : forallb lowercase valid = true ->
  check_and_change_lower v valid = Ok v' <-> spelled valid v v'.
Proof.
  intros Hv. assert (forall w, w ∈ valid -> lowercase w = true) as Hl.
  { intros w Hw. rewrite forallb_forall in Hv. apply Hv. by apply elem_of_list_In. }
  unfold spelled. split.
  - destruct v as [| | | |s| |]; cbn; try done. case_bool_decide as H; [|done]. intros [= <-].
    exists s, (lower s). split; [done|]. split; [done|]. split; [|done]. apply lower_word; [by apply Hl|done].
  - intros (s&w&->&Hin&Hs&->). apply lower_word in Hs; [|by apply Hl]. cbn. rewrite Hs. by rewrite bool_decide_true.
Qed.
Lemma change_lower_err v valid e : check_and_change_lower v valid = Err e -> e = ValueError.
Proof. destruct v; cbn; try congruence. case_bool_decide; congruence. Qed.

(** * Single checks *)
Ltac verr := try (intros H; vm_compute in H; congruence).
Ltac vcase v := destruct v as [|b|z|[q| | |]|s|l|[]].

Lemma numeric_ok v : reject (Ok (negb (type_in v NUMERIC))) = Ok tt <-> numeric v.
Proof. vcase v; (split; [intros H; try discriminate H; constructor|intros H; try (inversion H; fail); reflexivity]). Qed.
Lemma integer_ok v : reject (Ok (negb (type_in v INTEGER))) = Ok tt <-> exists z, v = VInt z.
Proof. vcase v; (split; [intros H; try discriminate H; eauto|intros [? H]; try discriminate H; reflexivity]). Qed.
Lemma boolean_ok v : reject (Ok (negb (type_in v ["bool"]))) = Ok tt <-> boolean v.
Proof. vcase v; (split; [intros H; try discriminate H; exists b; reflexivity|intros [? H]; try discriminate H; reflexivity]). Qed.
Lemma simple_err b e : reject (Ok b) = Err e -> e = ValueError.
Proof. destruct b; cbn; congruence. Qed.

Lemma int_lt_ok v c : reject (or_else (negb (type_in v INTEGER)) (v_lt v c)) = Ok tt <-> int_from c v.
Proof.
  vcase v; try (split; [intros H; discriminate H|intros (?&[=]&_)]).
  cbn. destruct (z <? c) eqn:E; (split; [|]).
  - done.
  - intros (?&[= <-]&?). lia.
  - intros _. exists z. split; [done|lia].
  - done.
Qed.
Lemma int_lt_err v c e : reject (or_else (negb (type_in v INTEGER)) (v_lt v c)) = Err e -> e = ValueError.
Proof. vcase v; verr; cbn [v_lt v_gt v_le v_ge mbind res_bind]. destruct (z <? c); verr. Qed.
Lemma positive_ok v : check_positive_integer v = Ok tt <-> int_from 1 v.
Proof.
  unfold check_positive_integer.
  vcase v; try (split; [intros H; discriminate H|intros (?&[=]&_)]).
  cbn. destruct (z <=? 0) eqn:E; (split; [|]).
  - done.
  - intros (?&[= <-]&?). lia.
  - intros _. exists z. split; [done|lia].
  - done.
Qed.
Lemma positive_err v e : check_positive_integer v = Err e -> e = ValueError.
Proof. unfold check_positive_integer. vcase v; verr; cbn [v_lt v_gt v_le v_ge mbind res_bind]. destruct (z <=? 0); verr. Qed.

Lemma valid_ok v valid : check_valid_value v valid = Ok tt <-> exists s, v = VStr s /\ s ∈ valid.
Proof.
  unfold check_valid_value. destruct (existsb (is_str v) valid) eqn:E; cbn.
  - split; [intros _|done]. apply existsb_exists in E as (s&Hin&Hs). destruct v; try done. cbn in Hs.
    apply bool_decide_eq_true in Hs as ->. exists s. by rewrite elem_of_list_In.
  - split; [done|]. intros (s&->&Hin). exfalso. rewrite <- not_true_iff_false in E. apply E, existsb_exists.
    exists s. split; [by apply elem_of_list_In|]. cbn. by rewrite bool_decide_true.
Qed.
Lemma task_ok v : reject (Ok (negb (existsb (is_str v) [CLASSIFICATION; REGRESSION]))) = Ok tt <->
  v = VStr "classification" \/ v = VStr "regression".
Proof.
  change (check_valid_value v ["classification"; "regression"] = Ok tt <-> v = VStr "classification" \/ v = VStr "regression").
  rewrite valid_ok. split.
  - intros (s&->&H). apply elem_of_cons in H as [->|H]; [by left|]. apply elem_of_list_singleton in H as ->. by right.
  - intros [->| ->]; eexists; (split; [done|]); [left|right; left].
Qed.

Lemma zq_ltb a b : qltb (zq a) (zq b) = (a <? b).
Proof.
  destruct (a <? b) eqn:E.
  - apply qltb_true, zq_lt. lia.
  - apply qltb_false, zq_le. lia.
Qed.
Lemma zq_leb a b : qleb (zq a) (zq b) = (a <=? b).
Proof.
  destruct (a <=? b) eqn:E.
  - apply qleb_true, zq_le. lia.
  - apply qleb_false, zq_lt. lia.
Qed.
(** A pair of comparisons on a number. *)
Lemma between_ok v lo hi : reject (or_else (negb (type_in v NUMERIC)) (a ← v_lt v lo; or_else a (v_gt v hi))) = Ok tt <->
  num_where (fun q => zq lo <= q /\ q <= zq hi)%Qc false v.
Proof.
  unfold num_where.
  vcase v; try (split; [intros H; discriminate H|intros [(?&[=]&_)|[(?&[=]&_)|[[_ [=]]|[=]]]]]).
  - cbn. destruct (z <? lo) eqn:E1; [|destruct (hi <? z) eqn:E2]; cbn; (split; [intros H; try discriminate H|]).
    + intros [(?&[= <-]&H1&H2)|[(?&[=]&_)|[[_ [=]]|[=]]]]. apply (proj1 (zq_le _ _)) in H1. lia.
    + intros [(?&[= <-]&H1&H2)|[(?&[=]&_)|[[_ [=]]|[=]]]]. apply (proj1 (zq_le _ _)) in H2. lia.
    + left. exists z. split; [done|]. split; apply zq_le; lia.
    + done.
  - cbn. destruct (qltb q (zq lo)) eqn:E1; [|destruct (qltb (zq hi) q) eqn:E2]; cbn; (split; [intros H; try discriminate H|]).
    + apply qltb_true in E1. intros [(?&[=]&_)|[(?&[= <-]&H1&H2)|[[_ [=]]|[=]]]]. qlra.
    + apply qltb_true in E2. intros [(?&[=]&_)|[(?&[= <-]&H1&H2)|[[_ [=]]|[=]]]]. qlra.
    + right. left. exists q. apply qltb_false in E1, E2. by split.
    + done.
  - split; [|done]. intros _. by right; right; right.
Qed.
Lemma between_err v lo hi e : reject (or_else (negb (type_in v NUMERIC)) (a ← v_lt v lo; or_else a (v_gt v hi))) = Err e -> e = ValueError.
Proof.
  vcase v; verr; cbn [v_lt v_gt v_le v_ge mbind res_bind].
  - destruct (z <? lo); [|destruct (hi <? z)]; verr.
  - destruct (qltb q (zq lo)); [|destruct (qltb (zq hi) q)]; verr.
Qed.
Lemma decimal_ok v : check_decimal_float v = Ok tt <-> float_where (fun q => zq 0 <= q /\ q <= zq 1)%Qc v.
Proof.
  unfold check_decimal_float, float_where.
  vcase v; try (split; [intros H; discriminate H|intros [(?&[=]&_)|[=]]]).
  - cbn. destruct (qltb q (zq 0)) eqn:E1; [|destruct (qltb (zq 1) q) eqn:E2]; cbn; (split; [intros H; try discriminate H|]).
    + apply qltb_true in E1. intros [(?&[= <-]&H1&H2)|[=]]. qlra.
    + apply qltb_true in E2. intros [(?&[= <-]&H1&H2)|[=]]. qlra.
    + left. exists q. apply qltb_false in E1, E2. by split.
    + done.
  - split; [|done]. intros _. by right.
Qed.
Lemma decimal_err v e : check_decimal_float v = Err e -> e = ValueError.
Proof.
  unfold check_decimal_float. vcase v; verr; cbn [v_lt v_gt v_le v_ge mbind res_bind].
  destruct (qltb q (zq 0)); [|destruct (qltb (zq 1) q)]; verr.
Qed.
Lemma open_unit_ok v : check_open_unit_interval v = Ok tt <-> float_where (fun q => zq 0 < q /\ q < zq 1)%Qc v.
Proof.
  unfold check_open_unit_interval, float_where.
  vcase v; try (split; [intros H; discriminate H|intros [(?&[=]&_)|[=]]]).
  - cbn. destruct (qleb q (zq 0)) eqn:E1; [|destruct (qleb (zq 1) q) eqn:E2]; cbn; (split; [intros H; try discriminate H|]).
    + apply qleb_true in E1. intros [(?&[= <-]&H1&H2)|[=]]. qlra.
    + apply qleb_true in E2. intros [(?&[= <-]&H1&H2)|[=]]. qlra.
    + left. exists q. apply qleb_false in E1, E2. by split.
    + done.
  - split; [|done]. intros _. by right.
Qed.
Lemma open_unit_err v e : check_open_unit_interval v = Err e -> e = ValueError.
Proof.
  unfold check_open_unit_interval. vcase v; verr; cbn [v_lt v_gt v_le v_ge mbind res_bind].
  destruct (qleb q (zq 0)); [|destruct (qleb (zq 1) q)]; verr.
Qed.

(** The loss parameter. *)
Lemma above0_ok x : reject (Ok (negb (type_in x NUMERIC))) = Ok tt /\ reject (v_le x 0) = Ok tt <->
  num_where (fun q => zq 0 < q)%Qc true x.
Proof.
  unfold num_where.
  vcase x; try (split; [intros [H _]; discriminate H|intros [(?&[=]&_)|[(?&[=]&_)|[[[=] _]|[=]]]]]).
  - cbn. destruct (z <=? 0) eqn:E; cbn; (split; [intros [_ H]; try discriminate H|]).
    + intros [(?&[= <-]&H)|[(?&[=]&_)|[[[=] _]|[=]]]]. apply (proj1 (zq_lt _ _)) in H. lia.
    + left. exists z. split; [done|]. apply zq_lt. lia.
    + done.
  - cbn. destruct (qleb q (zq 0)) eqn:E; cbn; (split; [intros [_ H]; try discriminate H|]).
    + apply qleb_true in E. intros [(?&[=]&_)|[(?&[= <-]&H)|[[[=] _]|[=]]]]. qlra.
    + right. left. exists q. apply qleb_false in E. by split.
    + done.
  - split; [|done]. intros _. by right; right; left.
  - split; [intros [_ H]; discriminate H|]. intros [(?&[=]&_)|[(?&[=]&_)|[[[=] _]|[=]]]].
  - split; [|done]. intros _. by right; right; right.
Qed.
Lemma tweedie_ok x : reject (Ok (negb (type_in x NUMERIC))) = Ok tt /\ reject (a ← v_lt x 1; or_else a (v_ge x 2)) = Ok tt
  /\ reject (v_le x 0) = Ok tt <-> num_where (fun q => zq 1 <= q /\ q < zq 2)%Qc false x.
Proof.
  unfold num_where.
  vcase x; try (split; [intros (H&H'&_); first [discriminate H|discriminate H']|intros [(?&[=]&_)|[(?&[=]&_)|[[_ [=]]|[=]]]]]).
  - cbn. destruct (z <? 1) eqn:E1; [|destruct (2 <=? z) eqn:E2]; cbn; (split; [intros (_&H&_); try discriminate H|]).
    + intros [(?&[= <-]&H1&H2)|[(?&[=]&_)|[[_ [=]]|[=]]]]. apply (proj1 (zq_le _ _)) in H1. lia.
    + intros [(?&[= <-]&H1&H2)|[(?&[=]&_)|[[_ [=]]|[=]]]]. apply (proj1 (zq_lt _ _)) in H2. lia.
    + left. exists z. split; [done|]. split; [apply zq_le; lia|apply zq_lt; lia].
    + intros _. destruct (z <=? 0) eqn:E3; [lia|done].
  - cbn. destruct (qltb q (zq 1)) eqn:E1; [|destruct (qleb (zq 2) q) eqn:E2]; cbn; (split; [intros (_&H&_); try discriminate H|]).
    + apply qltb_true in E1. intros [(?&[=]&_)|[(?&[= <-]&H1&H2)|[[_ [=]]|[=]]]]. qlra.
    + apply qleb_true in E2. intros [(?&[=]&_)|[(?&[= <-]&H1&H2)|[[_ [=]]|[=]]]]. qlra.
    + right. left. exists q. apply qltb_false in E1. apply qleb_false in E2. by split.
    + intros _. destruct (qleb q (zq 0)) eqn:E3; [|done]. apply qleb_true in E3. apply qltb_false in E1.
      assert (zq 0 < zq 1)%Qc by (by apply zq_lt). qlra.
  - split; [|done]. intros _. by right; right; right.
Qed.
Lemma above0_err x e : numeric x -> reject (v_le x 0) = Err e -> e = ValueError.
Proof.
  destruct 1 as [z|[q| | |]]; verr; cbn [v_lt v_gt v_le v_ge mbind res_bind]; [destruct (z <=? 0)|destruct (qleb q (zq 0))]; verr.
Qed.
Lemma tweedie_err x e : numeric x -> reject (a ← v_lt x 1; or_else a (v_ge x 2)) = Err e -> e = ValueError.
Proof.
  destruct 1 as [z|[q| | |]]; verr; cbn [v_lt v_gt v_le v_ge mbind res_bind].
  - destruct (z <? 1); [|destruct (2 <=? z)]; verr.
  - destruct (qltb q (zq 1)); [|destruct (qleb (zq 2) q)]; verr.
Qed.

Lemma loss_params_ok w params :
  w ∈ ["lse"; "lae"; "huber"; "fair"; "log_cosh"; "tweedie"] ->
  check_loss_params (VStr w) params = Ok tt <->
    w ∈ ["lse"; "lae"; "log_cosh"]
    \/ (w ∈ ["huber"; "fair"] /\ loss_number (fun q => zq 0 < q)%Qc true params)
    \/ (w ∈ ["tweedie"] /\ loss_number (fun q => zq 1 <= q /\ q < zq 2)%Qc false params).
Proof.
  intros Hw. unfold check_loss_params.
  assert (w ∈ ["lse"; "lae"; "log_cosh"] \/ w ∈ ["huber"; "fair"] \/ w ∈ ["tweedie"]) as Hcase.
  { repeat (apply elem_of_cons in Hw as [->|Hw]; [first [left; apply (bool_decide_unpack _); reflexivity|right; left; apply (bool_decide_unpack _); reflexivity|right; right; apply (bool_decide_unpack _); reflexivity]|]). by apply elem_of_nil in Hw. }
  assert (forall w, w ∈ ["lse"; "lae"; "log_cosh"] -> w ∉ ["huber"; "fair"] /\ w ∉ ["tweedie"]) as D1.
  { intros x Hx. repeat (apply elem_of_cons in Hx as [->|Hx]; [split; apply (bool_decide_unpack _); reflexivity|]). by apply elem_of_nil in Hx. }
  assert (forall w, w ∈ ["huber"; "fair"] -> w ∉ ["tweedie"]) as D2.
  { intros x Hx. repeat (apply elem_of_cons in Hx as [->|Hx]; [apply (bool_decide_unpack _); reflexivity|]). by apply elem_of_nil in Hx. }
  assert (forall P b, (exists x l, params = VList (x :: l) /\ num_where P b x) <-> loss_number P b params) as HL by done.
  destruct Hcase as [H|[H|H]].
  - assert (existsb (is_str (VStr w)) ["huber"; "fair"; "tweedie"] = false) as ->.
    { repeat (apply elem_of_cons in H as [->|H]; [reflexivity|]). by apply elem_of_nil in H. }
    split; [by left|done].
  - assert (existsb (is_str (VStr w)) ["huber"; "fair"; "tweedie"] = true /\ is_str (VStr w) "tweedie" = false) as [-> ->].
    { repeat (apply elem_of_cons in H as [->|H]; [by split|]). by apply elem_of_nil in H. }
    assert ((match params with VList (x :: _) => _ ← reject (Ok (negb (type_in x NUMERIC))); _ ← Ok tt; reject (v_le x 0)
             | _ => Err ValueError end) = Ok tt <-> loss_number (fun q => zq 0 < q)%Qc true params) as ->.
    { unfold loss_number. destruct params as [| | | | |[|x l]|]; try (split; [done|intros (?&?&[=]&_)]).
      rewrite bind_ok. cbn [mbind res_bind]. split.
      - intros ([]&H1&H2). exists x, l. split; [done|]. by apply above0_ok.
      - intros (?&?&[= <- <-]&Hn). apply above0_ok in Hn as [H1 H2]. by exists tt. }
    split; [intros Hn; right; left; by split|]. intros [H'|[[_ H']|[H' _]]]; [by apply D1 in H' as [? _]|done|by apply D2 in H].
  - assert (existsb (is_str (VStr w)) ["huber"; "fair"; "tweedie"] = true /\ is_str (VStr w) "tweedie" = true) as [-> ->].
    { repeat (apply elem_of_cons in H as [->|H]; [by split|]). by apply elem_of_nil in H. }
    assert ((match params with VList (x :: _) => _ ← reject (Ok (negb (type_in x NUMERIC))); _ ← reject (a ← v_lt x 1; or_else a (v_ge x 2)); reject (v_le x 0)
             | _ => Err ValueError end) = Ok tt <-> loss_number (fun q => zq 1 <= q /\ q < zq 2)%Qc false params) as ->.
    { unfold loss_number. destruct params as [| | | | |[|x l]|]; try (split; [done|intros (?&?&[=]&_)]).
      rewrite bind_ok. split.
      - intros ([]&H1&H2). apply bind_ok in H2 as ([]&H2&H3). exists x, l. split; [done|]. by apply tweedie_ok.
      - intros (?&?&[= <- <-]&Hn). apply tweedie_ok in Hn as (H1&H2&H3). exists tt. split; [done|]. apply bind_ok. by exists tt. }
    split; [intros Hn; right; right; by split|]. intros [H'|[[H' _]|[_ H']]]; [by apply D1 in H' as [_ ?]|by apply D2 in H'|done].
Qed.
Lemma loss_params_err o params e : check_loss_params o params = Err e -> e = ValueError.
Proof.
  unfold check_loss_params. destruct (existsb _ _); [|done]. destruct params as [| | | | |[|x l]|]; try congruence.
  intros H. apply bind_err in H as [H|([]&Hn&H)]; [by eapply simple_err|]. apply numeric_ok in Hn.
  apply bind_err in H as [H|([]&_&H)]; [|by eapply above0_err].
  destruct (is_str o "tweedie"); [|done]. by eapply tweedie_err.
Qed.

(** * Whole parameter objects *)
Lemma spelled_mono l l' v v' : l ⊆ l' -> spelled l v v' -> spelled l' v v'.
Proof. intros Hl (s&w&->&Hin&H&->). exists s, w. split; [done|]. split; [by apply Hl|done]. Qed.

Lemma tree_check_ok p p' : tree_check p = Ok p' <-> doc_tree p p'.
Proof.
  unfold tree_check, doc_tree.
  split.
  - intros H. apply bind_ok in H as (m&Hm&H). apply bind_ok in H as ([]&Hcp&H). apply bind_ok in H as ([]&Hd1&H).
    apply bind_ok in H as ([]&Hd2&H). apply bind_ok in H as ([]&Hs&H). apply bind_ok in H as ([]&Hi&H). apply bind_ok in H as ([]&Hlf&H).
    apply bind_ok in H as ([]&Hsn&H). apply bind_ok in H as ([]&Hit&H). apply bind_ok in H as ([]&Htol&H).
    apply bind_ok in H as (i&Hi'&[= <-]). cbn.
    apply change_lower_ok in Hm; [|done]. apply change_lower_ok in Hi'; [|done].
    apply integer_ok in Hs, Hlf. apply numeric_ok in Hi, Htol. apply boolean_ok in Hit. apply int_lt_ok in Hsn.
    split_and!; try done.
    + destruct (tp_criterion_params p) as [| | | | |[|x l]|]; try done. exists x, l. split; [done|]. by apply numeric_ok.
    + apply int_lt_ok. apply integer_ok in Hd1 as [z E]. rewrite E in *. exact Hd2.
  - intros (Hm&(x&l&Ecp&Hx)&Hd&Hs&Hi&Hlf&Hsn&Hit&Htol&Hi'&E1&E2).
    apply bind_ok. exists (tp_criterion_method p'). split; [by apply change_lower_ok|].
    apply bind_ok. exists tt. split; [rewrite Ecp; by apply numeric_ok|].
    apply bind_ok. exists tt. split; [apply integer_ok; destruct Hd as (z&?&_); by exists z|].
    apply bind_ok. exists tt. split; [destruct Hd as (z&->&Hz); cbn; destruct (z <? 1) eqn:E; [lia|done]|].
    apply bind_ok. exists tt. split; [by apply integer_ok|].
    apply bind_ok. exists tt. split; [by apply numeric_ok|].
    apply bind_ok. exists tt. split; [by apply integer_ok|].
    apply bind_ok. exists tt. split; [by apply int_lt_ok|].
    apply bind_ok. exists tt. split; [by apply boolean_ok|].
    apply bind_ok. exists tt. split; [by apply numeric_ok|].
    apply bind_ok. exists (tp_importance p'). split; [by apply change_lower_ok|].
    destruct p as [], p' as []; cbn in *. injection E1 as -> -> -> -> ->. injection E2 as -> -> ->. done.
Qed.
Ltac errs := repeat match goal with
  | H : mbind _ _ = Err _ |- _ => apply bind_err in H as [H|(?&?&H)]
  end.
Lemma tree_check_err p e : tree_check p = Err e -> e = ValueError.
Proof.
  unfold tree_check. intros H. errs; try discriminate; try (by eapply simple_err); try (by eapply change_lower_err); try (by eapply int_lt_err).
  - destruct (tp_criterion_params p) as [| | | | |[|x' l]|]; try congruence. by eapply simple_err.
  - assert (exists z, tp_max_depth p = VInt z) as [z E] by (apply integer_ok; by destruct x1).
    rewrite E in *. cbn in *. destruct (z <? 1); cbn in *; congruence.
Qed.

Lemma objective_check_ok task p p' : task = VStr "classification" \/ task = VStr "regression" ->
  objective_check p task = Ok p' <-> doc_objective task p p'.
Proof.
  intros Htask. unfold objective_check, doc_objective.
  assert (op_objective p = VNone \/ op_objective p <> VNone) as [En|En] by (destruct (op_objective p); [by left|by right..]).
  { rewrite En. destruct p as [o ps], p' as [o' ps']; cbn in *. subst o. split.
    - intros [= <- <-]. by split; [|left].
    - intros [-> [[_ ->]|[(_&[=]&_)|(_&[(?&?&[=]&_)|[[(?&?&[=]&_) _]|[(?&?&[=]&_) _]]])]]]. done. }
  assert (forall r, (match op_objective p with VNone => Ok p | _ => r end) = r) as Hr by (intros r; by destruct (op_objective p)).
  destruct p as [o ps], p' as [o' ps']; cbn [op_objective op_params] in *.
  destruct Htask as [->| ->].
  - transitivity ((_ ← reject (Ok (negb (is_str o "cross_entropy"))); Ok (OP o ps)) = Ok (OP o' ps')); [by destruct o|].
    rewrite bind_ok. split.
    + intros ([]&H&[= <- <-]). split; [done|]. right. left. destruct o; try discriminate H. cbn in H.
      case_bool_decide; [subst; done|discriminate H].
    + intros [-> [[? _]|[(_&->&->)|([=]&_)]]]; [done|]. by exists tt.
  - transitivity ((o0 ← check_and_change_lower o ["lse"; "lae"; "huber"; "fair"; "log_cosh"; "tweedie"];
                   _ ← check_loss_params o0 ps; Ok (OP o0 ps)) = Ok (OP o' ps')); [by destruct o|].
    rewrite bind_ok. split.
    + intros (o0&H1&H2). apply bind_ok in H2 as ([]&H2&[= <- <-]). split; [done|]. right; right. split; [done|].
      apply change_lower_ok in H1; [|done]. destruct H1 as (s&w&->&Hin&Hs&->).
      apply loss_params_ok in H2; [|done]. unfold spelled.
      destruct H2 as [H2|[[H2 H3]|[H2 H3]]]; [left|right; left; split; [|done]|right; right; split; [|done]]; by exists s, w.
    + intros [-> [[? _]|[([=]&_)|(_&H)]]]; [done|].
      assert (exists s w, o = VStr s /\ w ∈ ["lse"; "lae"; "huber"; "fair"; "log_cosh"; "tweedie"] /\ same_word s w /\ o' = VStr w /\
              check_loss_params (VStr w) ps = Ok tt) as (s&w&->&Hin&Hs&->&Hc).
      { destruct H as [(s&w&->&Hin&Hs&->)|[((s&w&->&Hin&Hs&->)&Hn)|((s&w&->&Hin&Hs&->)&Hn)]]; exists s, w; split_and!; try done.
        all: try (apply loss_params_ok).
        all: try (repeat (apply elem_of_cons in Hin as [->|Hin]; [apply (bool_decide_unpack _); reflexivity|]); by apply elem_of_nil in Hin).
        - by left.
        - right; left. by split.
        - right; right. by split. }
      exists (VStr w). split; [apply change_lower_ok; [done|]; by exists s, w|]. by rewrite Hc.
Qed.
Lemma objective_check_err task p e : objective_check p task = Err e -> e = ValueError.
Proof.
  unfold objective_check. intros H.
  assert (forall o, (o0 ← (if negb (existsb (is_str task) [CLASSIFICATION; REGRESSION]) then
             check_and_change_lower o ["cross_entropy"; "lse"; "lae"; "huber"; "fair"; "log_cosh"; "tweedie"]
           else Ok o);
      if is_str task CLASSIFICATION then
        _ ← reject (Ok (negb (is_str o0 "cross_entropy"))); Ok (OP o0 (op_params p))
      else if is_str task REGRESSION then
        o0 ← check_and_change_lower o0 ["lse"; "lae"; "huber"; "fair"; "log_cosh"; "tweedie"];
        _ ← check_loss_params o0 (op_params p);
        Ok (OP o0 (op_params p))
      else Ok (OP o0 (op_params p))) = Err e -> e = ValueError) as Hall.
  { intros o H'. apply bind_err in H' as [H'|(o0&_&H')].
    - destruct (negb _); [|done]. by eapply change_lower_err.
    - destruct (is_str task CLASSIFICATION); [|destruct (is_str task REGRESSION); [|done]].
      + apply bind_err in H' as [H'|(?&_&H')]; [by eapply simple_err|done].
      + apply bind_err in H' as [H'|(?&_&H')]; [by eapply change_lower_err|].
        apply bind_err in H' as [H'|(?&_&H')]; [by eapply loss_params_err|done]. }
  destruct (op_objective p); [done|eapply Hall; exact H..].
Qed.

Lemma encrypt_check_ok p p' : encrypt_check p = Ok p' <-> doc_encrypt p p'.
Proof.
  unfold encrypt_check, doc_encrypt. destruct p as [m k], p' as [m' k']. cbn [ep_method ep_key_length]. rewrite bind_ok.
  assert (forall s, lower s = "paillier" <-> same_word s "paillier") as Hw by (intros s; by apply lower_word).
  assert (forall x, (_ ← reject (Ok (negb (type_in k ["int"]))); _ ← reject (v_le k 0); Ok (EP x k)) = Ok (EP m' k') <->
          int_from 1 k /\ k' = k /\ m' = x) as Hk.
  { intros x. destruct k as [| |z|[]| | |[]]; try (split; [intros H; discriminate H|intros ((?&[=]&_)&_)]).
    cbn. destruct (z <=? 0) eqn:E; cbn; split; try done.
    - intros ((?&[= <-]&?)&_). lia.
    - intros [= <- <-]. split; [|done]. exists z. split; [done|lia].
    - intros (_&->&->). done. }
  split.
  - intros (x&Hx&H). apply Hk in H as (Hi&->&->). split; [done|]. split; [done|].
    destruct m as [| | | |s| |]; try done. exists s. split; [done|]. case_bool_decide as E; injection Hx as <-.
    + left. split; [by apply Hw|done].
    + right. split; [by rewrite <- Hw|done].
  - intros (Hi&->&s&->&H). exists m'. split; [|by apply Hk].
    destruct H as [[H ->]|[H ->]].
    + apply Hw in H. by rewrite bool_decide_true.
    + rewrite bool_decide_false; [done|]. by rewrite Hw.
Qed.
Lemma encrypt_check_err p e : encrypt_check p = Err e -> e = ValueError \/ (e = AttributeError /\ ep_method p = VNone).
Proof.
  unfold encrypt_check. intros H. errs; [| | |discriminate].
  - destruct (ep_method p); try (left; congruence); right; split; congruence.
  - left. by eapply simple_err.
  - left. destruct (ep_key_length p) as [| |z|[]| | |[]]; try discriminate. cbn in H. destruct (z <=? 0); cbn in H; congruence.
Qed.

Lemma boosting_check_ok p p' : boosting_check p = Ok p' <-> doc_boosting p p'.
Proof.
  unfold boosting_check, doc_boosting. split.
  - intros H.
    apply bind_ok in H as (t&Ht&H). apply bind_ok in H as ([]&Htask&H). apply bind_ok in H as (o&Ho&H).
    apply bind_ok in H as ([]&Hlr&H). apply bind_ok in H as ([]&Hnt&H). apply bind_ok in H as ([]&Hss&H).
    apply bind_ok in H as ([]&Hit&H). apply bind_ok in H as ([]&Htol&H). apply bind_ok in H as (en&He&H).
    apply bind_ok in H as ([]&Hb&[= <-]). cbn.
    apply task_ok in Htask. apply objective_check_ok in Ho; [|done].
    split_and!; try done; [by apply tree_check_ok|by apply numeric_ok|by apply int_lt_ok|by apply between_ok|by apply boolean_ok
      |by apply numeric_ok|by apply encrypt_check_ok|by apply int_lt_ok].
  - intros (Ht&Htask&Ho&Hlr&Hnt&Hss&Hit&Htol&He&Hb&E1&E2).
    apply bind_ok. exists (bp_tree p'). split; [by apply tree_check_ok|].
    apply bind_ok. exists tt. split; [by apply task_ok|].
    apply bind_ok. exists (bp_objective p'). split; [by apply objective_check_ok|].
    apply bind_ok. exists tt. split; [by apply numeric_ok|].
    apply bind_ok. exists tt. split; [by apply int_lt_ok|].
    apply bind_ok. exists tt. split; [by apply between_ok|].
    apply bind_ok. exists tt. split; [by apply boolean_ok|].
    apply bind_ok. exists tt. split; [by apply numeric_ok|].
    apply bind_ok. exists (bp_encrypt p'). split; [by apply encrypt_check_ok|].
    apply bind_ok. exists tt. split; [by apply int_lt_ok|].
    destruct p as [], p' as []; cbn in *. injection E1 as -> -> -> -> -> -> ->. injection E2 as -> -> ->. done.
Qed.
Lemma boosting_check_err p e : boosting_check p = Err e ->
  e = ValueError \/ (e = AttributeError /\ ep_method (bp_encrypt p) = VNone).
Proof.
  unfold boosting_check. intros H. errs; try discriminate;
    first [left; by eapply tree_check_err|left; by eapply simple_err|left; by eapply objective_check_err
          |left; by eapply int_lt_err|left; by eapply between_err|by apply encrypt_check_err].
Qed.

Lemma mode_check_ok p p' : mode_check p = Ok p' <-> doc_mode p p'.
Proof.
  unfold mode_check, doc_mode. destruct p as [m r], p' as [m' r']. cbn [mp_mode mp_rate]. rewrite bind_ok. split.
  - intros (x&Hx&H). apply bind_ok in H as ([]&H&[= <- <-]). split; [done|].
    apply change_lower_ok in Hx; [|done]. destruct Hx as (s&w&->&Hin&Hs&->).
    apply elem_of_cons in Hin as [->|Hin]; [left; exists s, "strict"; split_and!; try done; left|].
    apply elem_of_cons in Hin as [->|Hin]; [left; exists s, "fast"; split_and!; try done; right; left|].
    apply elem_of_list_singleton in Hin as ->. right. cbn in H. apply numeric_ok in H. split; [|done].
    exists s, "balance". split_and!; try done. left.
  - intros [-> H]. exists m'. split.
    + apply change_lower_ok; [done|]. destruct H as [H|[H _]]; (eapply spelled_mono; [|exact H]); intros w Hw.
      * apply elem_of_cons in Hw as [->|Hw]; [left|]. apply elem_of_list_singleton in Hw as ->. right; left.
      * apply elem_of_list_singleton in Hw as ->. right; right; left.
    + destruct H as [(s&w&->&Hin&_&->)|[(s&w&->&Hin&_&->) Hn]].
      * apply elem_of_cons in Hin as [->|Hin]; [done|]. by apply elem_of_list_singleton in Hin as ->.
      * apply elem_of_list_singleton in Hin as ->. cbn [is_str]. rewrite bool_decide_true by done.
        apply numeric_ok in Hn. by rewrite Hn.
Qed.

Lemma binning_check_ok p p' : binning_check p = Ok p' <-> doc_binning p p'.
Proof.
  unfold binning_check, doc_binning.
  assert (forall v, check_defined_type v ["list"; "int"; "RepeatedScalarContainer"] = Ok tt <->
          ((exists l, v = VList l) \/ (exists z, v = VInt z) \/ v = VOther RepeatedScalarContainer)) as Hcols.
  { intros v. vcase v; (split; [intros H; try discriminate H; eauto|intros [[? H]|[[? H]|H]]; try discriminate H; reflexivity]). }
  assert (forall v', check_string (fp_method p) = Ok tt
            /\ check_valid_value (match fp_method p with VStr s => VStr (lower s) | x => x end) ["quantile"] = Ok tt
            /\ v' = (match fp_method p with VStr s => VStr (lower s) | x => x end) <-> spelled ["quantile"] (fp_method p) v') as Hm.
  { intros v'. split.
    - intros (H1&H2&->). destruct (fp_method p) as [| | | |s| |[]]; try discriminate H1. apply valid_ok in H2 as (x&E&Hx). injection E as <-.
      apply elem_of_list_singleton in Hx. exists s, "quantile". split_and!; [done|left|by apply lower_word|by rewrite Hx].
    - intros (s&w&->&Hin&Hs&->). apply elem_of_list_singleton in Hin as ->. apply lower_word in Hs; [|done]. rewrite Hs. done. }
  split.
  - intros H.
    apply bind_ok in H as ([]&H1&H). apply bind_ok in H as ([]&H2&H). apply bind_ok in H as ([]&H3&H).
    apply bind_ok in H as ([]&H4&H). apply bind_ok in H as ([]&H5&H). apply bind_ok in H as ([]&H6&H).
    apply bind_ok in H as ([]&H7&H). apply bind_ok in H as ([]&H8&[= <-]). cbn.
    split_and!; try done; [apply Hm; split; [exact H1|split; [exact H2|reflexivity]]|by apply positive_ok|by apply positive_ok|by apply decimal_ok|by apply positive_ok
      |by apply Hcols|by apply open_unit_ok].
  - intros (H1&H2&H3&H4&H5&H6&H7&E). apply Hm in H1 as (H0&H1&H8).
    apply bind_ok. exists tt. split; [done|]. apply bind_ok. exists tt. split; [done|].
    apply bind_ok. exists tt. split; [by apply positive_ok|]. apply bind_ok. exists tt. split; [by apply positive_ok|].
    apply bind_ok. exists tt. split; [by apply decimal_ok|]. apply bind_ok. exists tt. split; [by apply positive_ok|].
    apply bind_ok. exists tt. split; [by apply Hcols|]. apply bind_ok. exists tt. split; [by apply open_unit_ok|].
    destruct p as [], p' as []; cbn in *. injection E as -> -> -> -> -> ->. by rewrite H8.
Qed.

Lemma cv_check_ok p : cv_check p = Ok tt <-> doc_cv p.
Proof.
  unfold cv_check, doc_cv. rewrite !bind_ok. split.
  - intros ([]&H1&H). apply bind_ok in H as ([]&H2&H). apply bind_ok in H as ([]&H3&H). apply bind_ok in H as ([]&H4&H).
    split_and!; [by apply positive_ok| | |by apply boolean_ok|by apply positive_ok].
    + apply valid_ok in H2 as (s&->&Hin). apply elem_of_cons in Hin as [->|Hin]; [by left|].
      apply elem_of_list_singleton in Hin as ->. by right.
    + apply valid_ok in H3 as (s&->&Hin). apply elem_of_cons in Hin as [->|Hin]; [by left|].
      apply elem_of_cons in Hin as [->|Hin]; [by right; left|]. apply elem_of_list_singleton in Hin as ->. by right; right.
  - intros (H1&H2&H3&H4&H5). exists tt. split; [by apply positive_ok|].
    apply bind_ok. exists tt. split; [destruct H2 as [->| ->]; reflexivity|].
    apply bind_ok. exists tt. split; [destruct H3 as [->|[->| ->]]; reflexivity|].
    apply bind_ok. exists tt. split; [by apply boolean_ok|]. by apply positive_ok.
Qed.
