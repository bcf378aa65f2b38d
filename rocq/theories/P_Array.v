(** C78. *)
From Verif Require Import PaillierProofs P_Paillier ArrayProofs.
Local Open Scope nat_scope.

(** Decryption of an array with numbers in all entries: the result has the decrypted values, as doubles, at the same positions; a
    vector comes back as a matrix with one row, and dimensions after a dimension 0 are lost. *)
Theorem C78_decrypt K (sk : privkey) (a : arr cell) : well_formed a -> (forall c, c ∈ a.2 -> exists v, sk_decrypt sk c = Ok v) ->
  exists ys, recursive_decrypt (K := K) (paillier_decrypt sk) np_float64 (InArray a) = Ok (out_shape a.1, ys) /\
    Forall2 (fun c y => exists v, sk_decrypt sk c = Ok v /\ y = CNum (PyFloat (fround (num v)))) a.2 ys.
Proof.
  intros [NE L] H. destruct (recursive_good (paillier_decrypt sk) np_float64) with (s := a.1) (data := a.2) as (ys & E & F); [|exact NE|exact L| |].
  - intros x y. destruct x; cbn; [|discriminate]. intros [= <-]. cbn. now rewrite fround_idem.
  - intros x Hx. destruct (H x Hx) as [v E]. exists (CNum (PyFloat (fround (num v)))), (CNum v). unfold paillier_decrypt. rewrite E. split; reflexivity.
  - exists ys. split; [exact E|]. eapply Forall2_impl; [exact F|]. cbv beta. intros x y (c & E1 & E2). unfold paillier_decrypt in E1. destruct (sk_decrypt sk x) as [v|] eqn:EV; [|discriminate]. injection E1 as <-. injection E2 as <-. eauto.
Qed.
Print Assumptions C78_decrypt.
(** The same for a table: its values are one row. *)
Theorem C78_decrypt_table K (sk : privkey) (t : dtable K cell) : (forall c, c ∈ dt_values t -> exists v, sk_decrypt sk c = Ok v) ->
  exists ys, recursive_decrypt (paillier_decrypt sk) np_float64 (InTable t) = Ok ([1; dt_count t], ys) /\
    Forall2 (fun c y => exists v, sk_decrypt sk c = Ok v /\ y = CNum (PyFloat (fround (num v)))) (dt_values t) ys.
Proof.
  intros H. destruct (C78_decrypt K sk ([length (dt_values t)], dt_values t)) as (ys & E & F); [split; [discriminate|cbn; lia]|exact H|]. exists ys. split; [|exact F].
  change (recursive_decrypt (paillier_decrypt sk) np_float64 (InTable t)) with (recursive_decrypt (K := K) (paillier_decrypt sk) np_float64 (InArray ([length (dt_values t)], dt_values t))). rewrite E.
  unfold out_shape, dt_count, dt_values. cbn [fst]. now rewrite map_length.
Qed.
Print Assumptions C78_decrypt_table.
(** Encryption of an array fails for every Paillier key as soon as there is something to encrypt: the encrypted numbers are to be
    converted to doubles. *)
Theorem C78_encrypt K n fresh (a : arr cell) : well_formed a -> a.2 <> [] -> (forall c, c ∈ a.2 -> exists v x, c = CNum v /\ pk_encrypt n v None None (fresh c) = Ok x) ->
  recursive_encrypt (K := K) (paillier_encrypt n fresh) np_float64 (InArray a) = Err TypeError.
Proof.
  intros [NE L] D H. apply recursive_bad; [exact NE|exact L|exact D|]. intros c Hc. destruct (H c Hc) as (v & x & -> & E). exists (CEnc x). unfold paillier_encrypt. rewrite E. split; reflexivity.
Qed.
Print Assumptions C78_encrypt.
(** A table of plain numbers: even a scheme that changes nothing cannot encrypt what it can decrypt. *)
Theorem C78_table_refuted : exists t : dtable nat cell, (exists a, recursive_decrypt Ok np_float64 (InTable t) = Ok a) /\ recursive_encrypt Ok np_float64 (InTable t) = Err TypeError /\
  (exists a, recursive_encrypt (K := nat) Ok np_float64 (InArray ([length (dt_values t)], dt_values t)) = Ok a).
Proof. exists (DT [(0, CNum (PyInt 2)); (1, CNum (PyInt 1))]). split; [|split]; [eexists; reflexivity|reflexivity|eexists; reflexivity]. Qed.
Print Assumptions C78_table_refuted.

(** Examples: 2, 1, 1 and 2 encrypted with a small key, in a matrix, a vector and a table. *)
Definition aex_fresh (c : cell) : Z := match c with CNum (PyInt z) => (2 + z)%Z | _ => 1%Z end.
Definition aex_plain : list cell := [CNum (PyInt 2); CNum (PyInt 1); CNum (PyInt 1); CNum (PyInt 2)].
Definition aex_cells : list cell := match mapR (paillier_encrypt 11413 aex_fresh) aex_plain with Ok l => l | Err _ => [] end.
Definition aex_nums (l : list cell) : list (option Q) := map (fun c => match c with CNum (PyFloat q) => Some (this q) | _ => None end) l.
Example C78_ex : well_formed ([2; 2], aex_cells) /\ Forall (fun c => exists v, sk_decrypt sk_small c = Ok v) aex_cells /\
  match recursive_decrypt (K := nat) (paillier_decrypt sk_small) np_float64 (InArray ([2; 2], aex_cells)) with Ok a => Some (a.1, aex_nums a.2) | Err _ => None end = Some ([2; 2], [Some 2%Q; Some 1%Q; Some 1%Q; Some 2%Q]) /\
  match recursive_decrypt (K := nat) (paillier_decrypt sk_small) np_float64 (InArray ([4], aex_cells)) with Ok a => Some a.1 | Err _ => None end = Some [1; 4].
Proof.
  split; [split; [discriminate|vm_compute; reflexivity]|]. split; [|split; vm_compute; reflexivity].
  apply Forall_forall. intros c Hc. apply elem_of_list_lookup in Hc as [[|[|[|[|j]]]] Hc]; vm_compute in Hc; try discriminate; injection Hc as <-; eexists; vm_compute; reflexivity.
Qed.
Example C78_encrypt_ex : well_formed ([2; 2], aex_plain) /\ aex_plain <> [] /\ Forall (fun c => exists v x, c = CNum v /\ pk_encrypt 11413 v None None (aex_fresh c) = Ok x) aex_plain.
Proof.
  split; [split; [discriminate|reflexivity]|]. split; [discriminate|].
  apply Forall_forall. intros c Hc. apply elem_of_list_lookup in Hc as [[|[|[|[|j]]]] Hc]; cbn in Hc; try discriminate; injection Hc as <-; eexists _, _; (split; [reflexivity|]); vm_compute; reflexivity.
Qed.
