# Formal verification of hetero-secure-boost-origin

The project is a Python re-implementation of SecureBoost: gradient boosted decision trees trained by one
*guest* (who has the labels) and several *hosts* (who have other feature columns), using Paillier encryption
for the gradient sums. This directory holds a Rocq/Coq 8.16.1 model of that code and machine-checked proofs
about it. `/repo` is only read.

## Layout

    properties.jsonl          the claims, in English (C01, C02, ...)
    MANIFEST.json             claim -> status -> theorem names
    seeded/LOG.jsonl          seeded-bug campaign: wrong programs tried and which theorems caught them
    rocq/theories/*Model.v    the model: definitions only, each citing file and lines in /repo
    rocq/theories/*Spec.v     small independent specifications (where a claim needs one)
    rocq/theories/*Proofs.v, *Main.v, *Table.v, Tree*.v ...   lemmas
    rocq/theories/P_*.v       property theorems, each followed by Print Assumptions and by an Example
                              showing that a non-trivial case meets the hypotheses

Names: a theorem about claim Cnn is called `Cnn_...`. `..._refuted` is the negation of what a reader of the
code would expect, with a concrete witness; claims marked "(defect)" are stated as what the code really does.
No theorem carries the suffix `_partial` at present.

## Modelling conventions

* Python exceptions are values: `res A := Ok a | Err e`, `e` naming the exception class. Where the exception
  leaves an object half changed the model returns the object, too.
* A Python `dict` is an association list in insertion order. A `DTable` is such a list.
* Objects mutated in place are returned as new values, except where the claim is about aliasing
  (C30), where an explicit heap of row objects is used.
* Loops are structural recursion or folds. `while True` loops carry fuel and return an explicit
  `OutOfFuel` result that theorem statements exclude or show to be unreachable (or, for C07 and C41, to be the
  only result for every fuel), or are given by a step relation.
* Python `int` is `Z` (unbounded, as in Python). Floats are exact rationals (`Qc`).
  - `fround` rounds a rational to 53 bits, ties to even, with an unbounded exponent range: no overflow, no
    subnormal numbers, no nan. It is applied after every float operation in the quantile code (C23-C27, C60),
    the statistics (C54) and the data split (C57). C10, C15 use the exact set of doubles.
  - In histograms, split search, leaf weights and boosting the cells are an abstract number type with addition
    and subtraction (`numops`), instantiated with rationals (guest) and ciphertexts (host). There the guest's
    float sums are exact; C74 to C76 bound what rounding does to the histogram, to the guest's search and to a tree grown without a federation. For scores the rounding is a parameter `rnd` of the model (C45), so the theorem holds
    for exact arithmetic and for doubles.
  - Losses and activations (C51-C53) are over the reals.
* Randomness (obfuscation values, shuffles, feature sampling, re-encryption draws) is an argument of the
  model function, so every theorem holds for every draw.
* The network is a byte stream with an arbitrary schedule of short reads (C05-C08). For the training protocol
  parties are programs over blocking send and receive, joined by one FIFO channel per direction and host, with
  an arbitrary interleaving (`ProcModel.v`).

## Trusted base

* The Coq 8.16.1 kernel with `vm_compute`, and the standard library and std++ as installed. No plugin, no other
  library (mathcomp, Coquelicot, Iris, Flocq, Equations, CoqHammer are not used).
* The fidelity of the model to the Python text. Every definition cites the lines it models and says what is
  simplified.
* Axioms: none of our own. What `Print Assumptions` lists for each theorem is in the appendix. All theorems
  are "Closed under the global context" except those of `P_Loss.v`, which use the standard library's axioms of
  the real numbers: `ClassicalDedekindReals.sig_forall_dec`, `ClassicalDedekindReals.sig_not_dec`,
  `FunctionalExtensionality.functional_extensionality_dep`, and `Classical_Prop.classic` through `Rlt_dec`-style
  lemmas and derivatives in the standard library.

## Modelled code

| file in /repo | modelled in | what |
|---|---|---|
| computing/d_table.py | DTableModel | the whole class |
| federation/transfer_inst.py | TransferModel, ProcModel | framing, short reads, end of file, routing by index |
| ml/secureprotol/fixedpoint.py | FixedPointModel | the whole class |
| ml/secureprotol/gmpy_math.py, fate_paillier.py | PaillierModel | powmod, invert, keys, encryption, arithmetic of encrypted numbers |
| ml/secureprotol/encrypt.py | CipherModel | RsaEncrypt; the wrappers PaillierEncrypt and IterativeAffine are one-line calls of the modelled functions |
| ml/secureprotol/affine.py, affine_encoder.py | CipherModel | whole |
| ml/secureprotol/encrypt_mode.py | EncryptModeModel | the whole class |
| ml/secureprotol/encrypt_mode.py inside fit (ml/tree/hetero_secureboosting_tree_guest.py:98-106, 252, 268, hetero_decision_tree_guest.py:409-412) | ModeModel, BoostModel | the calculator as one object for all trees, its state threaded through boosting |
| ml/feature/quantile_summaries.py, binning/quantile_binning.py | QuantileModel | whole, `cols = -1` |
| ml/feature/binning/base_binning.py, sparse_vector.py, ml/tree/boosting_tree.py, utils/abnormal_detection.py, statistic/data_overview.py | BinningModel | conversion of rows and split points, alignment, mutation of rows |
| ml/tree/feateur_histogram.py | HistModel | whole |
| ml/tree/splitter.py, creterion.py, node.py | SplitModel | whole; split selection of guest and host |
| feateur_histogram.py, splitter.py, creterion.py in doubles | FloatSplitModel | the guest's sums (`fops`) and its search with every operation rounded |
| xgboost/hetero_decision_tree_guest.py:65-69, 91-135, 412-469 and creterion.py:53-54 in doubles | FloatTreeModel | growing one tree without a federation with every operation rounded; encryption of the gradients (dropped by the program) and importances left out |
| ml/tree/hetero_decision_tree_guest.py, _host.py, decision_tree.py | TreeModel, PredictModel | fit and predict of both parties, message by message; saving and loading a tree |
| ml/tree/hetero_secureboosting_tree_guest.py, _host.py, ml/optim/convergence.py (DiffConverge), ml/utils/classfiy_label_checker.py | BoostModel | fit and predict of both parties for classification, labels, sampling, importance, stopping |
| ml/loss/cross_entropy.py, regression_loss.py, ml/optim/activation.py | LossModel (reals), BoostModel (gradients in the loop), StatModel (initialize) | formulas; start of regression |
| ml/statistic/statics.py | StatModel | summary statistics, multivariate statistics |
| i_o/utils.py, guest.py, host.py, ml/feature/instance.py | InputModel | CSV reading, data split, tables, printed accuracy |
| ml/param/*.py | ParamModel | constructors and `check` |
| ml/utils/fate_operator.py, ml/optim/convergence.py (WeightDiffConverge) | OperatorModel | `norm` of numpy is a parameter; shapes left to `np.dot` are not modelled; arrays are references into a heap |
| ml/model_base.py, ml/utils/param_extract.py | RunModel | stages of a run; configuration |
| xgboost/*.py | LocalModel | the program without a federation; the rest is shared with the federated model |
| ml/tree/hetero_secureboosting_tree_guest.py (fit, predict, set_y), _host.py (fit, predict) around training | PipeModel | alignment, binning, labels, training; alignment, scoring, classes. The label of a row object is a separate table |
| guest.py:26-82, host.py:22-61 | ScriptModel (with InputModel, PipeModel) | files to printed accuracy; reading arguments and connecting sockets is not modelled |
| federation/transfer_inst.py:10-47 under the protocol | SocketModel | sendall and recv in pieces, buffers of limited size; pickle is a pair of functions |
| ml/secureprotol/encrypt.py:56-62, 74-116, 185-195 | ArrayModel | encrypt_list/decrypt_list, recursive_encrypt/recursive_decrypt over arrays given by shape and row-major entries; numpy's stacking, iteration and conversion to float64 are written out |
| ml/param/base_param.py:32-83, 135-160 | RuleModel | rule files as association lists, attributes as numbers, strings, None or nested parameter objects (lists, dicts and booleans as attributes are left out); limits compared in exact rationals; reading and parsing the file is not modelled, an unreadable file is `None` |
| ml/secureprotol/fate_paillier.py:29-46, ml/secureprotol/gmpy_math.py:49-55 | KeygenModel | both loops as one recursion over the results of getrandbits; gmpy2.next_prime is a function assumed to give the least prime above its argument on the numbers it is asked for; lengths below 2 are left out |
| ml/tree/feateur_histogram.py:63-83, computing/d_table.py:90-97 | MergeModel | merging of two histograms cell by cell and reduce over any number of partitions; the change of the first argument in place is left out; the repository's own table has one partition, so the merge is reached only with another implementation of the table interface |
| ml/feature/binning/quantile_binning.py:152-165, computing/d_table.py:90-97 | SumDictModel | merging of dictionaries of summaries and reduce over any number of partitions, for dense and sparse rows; the change of the first dictionary's summaries in place is left out; reached only with another implementation of the table interface |
| ml/feature/binning/base_binning.py:43-71, ml/statistic/statics.py:111-139 | ColsModel | choice of columns by a list of indices on a new object; int() is represented by its result; that an object already set up ignores a further table is not modelled |
| federation/transfer_inst.py:10-47 when a process ends | CloseModel | what recv and sendall do on a connection whose other end has ended or died: the rest of the bytes, then empty strings, or an exception; a machine that vanishes without closing its connections is not covered |
| test_xgboost.py:10-51 (53-71 is data_split of guest.py) | XgbModel | `np.hstack` of two rows is concatenation; the fixed paths, the ratio 0.8 and the fit/predict parameters are arguments |

Not modelled: pickle (a message is its byte string, resp. its value at the protocol level), the operating
system's sockets, connection set-up, logging, gmpy2's and numpy's internals (their documented results are used),
finding primes (hypothesis `prime p`; in C80 a next-prime function), the protobuf wire format (field defaults and ranges are modelled),
`arch/api/*_pb2.py`, `ml/utils/logger.py`, AbsConverge (`loss <= eps`), `one_vs_rest`/cross-validation shells of
`model_base.py`, nan and infinities, memory limits.

## Properties: what is modelled and how it is proved

| id | model | method |
|----|-------|--------|
| C01-C04 | DTableModel | the constructor's loop with duplicate check; refinement to lookup in finite maps (`C02_history...`: invariant over every history of operations); folds |
| C05-C08 | TransferModel | socket = bytes + schedule of short reads; induction on the payload and on messages; witnesses for split headers; for every fuel the receiver of a closed stream has not returned |
| C09-C11 | FixedPointModel | mantissa/exponent arithmetic over Z and Qc; `is_double` describes doubles; error bound, ties to even, rejection |
| C12-C14 | PaillierModel | Fermat and CRT (NumTheory.v), decryption is a homomorphism from units mod n^2 to Z/n, for all primes with the side condition of key generation; C13 for any obfuscator sharing a factor |
| C15-C18 | PaillierModel | lifted to encrypted numbers with exponents; bound on sums from key size and gradient range; foreign keys |
| C19-C20 | EncryptModeModel | state machine over call histories, invariant decrypt(previous) = previous data; abstract cipher law, plus an instance |
| C21-C22 | CipherModel | RSA by Fermat + CRT; affine: expression trees, linear invariant, sign window, witnesses outside |
| C23-C27, C60 | QuantileModel | sorted-list and rank invariants of the summary under insert, compress, query with rounding; witnesses for the flush and the sparse query; monotone queries give increasing split points |
| C28-C30 | BinningModel | list induction; heap of row objects for aliasing |
| C31-C33 | HistModel, HistSpec | sums over the rows of a node, by induction over rows, features, bins; generic cell type; homomorphism between cell types |
| C34-C37 | SplitModel, SplitSpec | first-best specification; encrypted candidates decrypt to the plaintext ones; objective minimisation over Qc |
| C38-C40 | TreeModel, TreeSpec | level-by-level growth as invariant; refinement of the two message-passing programs to a recursive tree that one party would grow; batches of hosts |
| C41-C43 | PredictModel | rounds of the prediction protocol equal to walking the recursive tree; termination; save/load field by field |
| C44 | TreeModel, PredictModel | the messages of a run: what the guest's messages contain, and two runs that differ only in labels or thresholds |
| C45-C50 | BoostModel, BoostSpec | induction over rounds with an invariant that relates scores to stored trees; label bijection; draws as arguments; importance as count over trees |
| C46, C47 | BoostModel, ProcModel | confluence of the step relation: if one schedule finishes, every schedule does, with the same results; mismatching parameters as witnesses |
| C51-C53 | LossModel | derivatives with `derivable_pt_lim` of the standard library |
| C54-C55 | StatModel, StatSpec | trees of insertions and merges against the batch values; error growth (1 + 2^-53)^n; every regression start raises |
| C56-C57, C61 | InputModel, InputSpec | parsing of every text; permutation and sizes; count of equal labels |
| C58 | ParamModel, ParamSpec | acceptance characterised per class; `check` is idempotent; witnesses for nan and modes |
| C59, C62 | RunModel, RunSpec | symbolic execution for all stage flags; tree of parameter objects against flat updates |
| C63 | LocalModel | simulation between the local program and the federated one with zero hosts in the place where the latter reads the hosts' answers; equality of trees, scores and predictions with the recursive tree |
| C64 | JoinSpec, JoinProofs, JoinMain | the split over all joined columns against the split over parties: same up to the preference margin; equal trees if no near tie occurs; witness for a near tie |
| C65 | PipeModel, PipeSpec | binning of the row objects (C29; the split points are pinned as the quantiles of the stored numbers of each column; the losses of the rounds are the loss of the labels and of the predictions after each round) gives the party data that training (C40, C45) assumes and the raw rows that the walk (C41) assumes, so the theorems compose from the heap to the predictions; both phases on every schedule; witness for reused row objects by running one schedule |
| C66 | ScriptModel, ScriptSpec | the tables of the programs (C57) satisfy the hypotheses of C65, the table of predictions is translated back to positions in the files, C61 gives the printed number; id independence by equality of the programs; witness for row order by running one schedule on concrete files |
| C67 | SocketModel, SocketSpec | the protocol rules of ProcProofs show that the programs run by direct hand-overs of messages (sender sends, receiver waits, nothing else on the way); each hand-over is simulated byte by byte within 16 bytes of buffer; byte steps have the diamond property, so every schedule ends alike; steps with larger pieces are sequences of byte steps. Witness for split headers on a concrete message |
| C68 | ModeModel, BoostModel | boosting is proved for any calculator whose state keeps an invariant; the invariant of EncryptModeProofs (every ciphertext of the last table is within s+1 units of 2^-47 of the plaintext, s = trees since a full encryption) is kept by every call; the trees are those of [learn], the centralised learner with separate gradients for the hosts' columns |
| C69 | ModeModel, LeakSpec | LeakSpec is the observer (dividing ciphertexts, keeping a diary of received messages), not repository code. The quotient of a ciphertext and its successor is 1 + n times the encoded difference; a guest program that *opens with* given tables to host i keeps them a prefix of host i's diary on every schedule; a host with a diary takes the same steps (simulation), so the outcome of C68 carries over |
| C70 | XgbModel, XgbSpec | the two sheets glued by position form a sheet, so the loading lemmas of C65/C66 apply; training is `local_train_ok` (C63) for the loaded party, prediction `local_score_any`; counting as in C61/C66. Same names: `split_points_result` looks points up by name. Witness on two concrete files |
| C71 | (models of C66 and C70) | the quantiles of a column of the glued table are those of the same column at its owner, so the loaded party is the two parties side by side (C64's `join_parties`); trees, rounds and losses agree by C64; the walk down a tree over the side-by-side values equals the walk over the files' values with renumbered columns (`walk_both`). The example instantiates the theorem with two files whose guest column is constant, for which the condition on gains holds for every tree. Near ties: both programs are run on two concrete files of nine rows |
| C72-C73 | OperatorModel | induction over the calls; the arrays of a call are read in the heap of the next call. The inner product by induction with an error bound; partial sums column by column |
| C74-C75 | FloatSplitModel | `fops` obeys the laws of a number type whose values are near the true sum (error quadratic in the number of terms), so the generic histogram theorem applies; error propagation through the gain; a search over approximate gains finds an approximate best |
| C76 | FloatTreeModel | invariant over the levels: every open node has its rows, its sums within an error quadratic in n times its level; C75 at every node with the node's own error; the second theorem compares with `learn` of TreeSpec by induction on the tree, the third is a witness by computation |
| C77 | CloseModel, CloseSpec | normal runs: a party that reads from or writes to an ended partner could not reach the end state that C67 gives. Deaths: as long as the guest has not noticed, the state is that of a run without deaths in which the dead hosts rest (simulation), so that blocked parties there would stay blocked; every step goes down in the trees of programs (well-founded), so schedules are finite. Witness for a guest that reads for ever on two hosts. Hypothesis: pickle rejects the empty string |
| C78 | ArrayModel | induction on the shape; rows are chunks of the entries, whose concatenation is the entries |
| C79 | RuleModel | induction on nested parameter objects, with an inner induction on the attributes; rules by cases on the operation |
| C80 | KeygenModel | induction on the draws with a state for the inner loop; attempts described as lists of draws; bit lengths by log2; odd lengths by the size of the product |
| C81 | CipherModel | congruences modulo n; the reader is an explicit function (`crack`) without a and b |
| C82 | MergeModel, HistModel | every partition's histogram written as a table of its rows' sums; merging two tables is the table of the rows appended; fold over partitions; permutation of sums. Encrypted: the same over any arithmetic with the laws of HistProofs, then decryption of cells as in C33 |
| C83 | SumDictModel, QuantileModel | merged summaries are reachable by a history of insertions, compressions and merges of the column's values, so the invariant of C23 applies; below the error bound a summary is the sorted list of its values with weight 1 and compression changes nothing; sparse rows by the invariant of C26 over merges; refutations by computation |
| C84 | ColsModel | induction on the list of indices for what is chosen and what is raised; the dictionary described by the first position of every name; refutations by computation |

Every property is expressible; none is marked not_applicable.

## Findings

The "(defect)" claims, and those whose name ends in `_refuted`, are behaviours a user would not expect: a header
read in two pieces breaks the stream (C06); a receiver spins when its peer has closed (C07); an obfuscator that is
no unit destroys the plaintext (C13); three-term encrypted sums can overflow silently (C16); fast re-encryption
drops rows (C20); the quantile sketch loses data after two flushes (C25) and sparse split points can be unsorted
(C27); fit overwrites the caller's rows (C30); histograms without a mask lose the zero bin (C32); split gain can be
negative (C37); tree structure and sums reach the hosts (C44); Tweedie and LAE gradients are wrong (C52); negative
variances (C54); regression never starts (C55); empty CSV lines and ragged rows (C56); parameter checks that accept
nan or reject documented modes (C58); evaluation predictions are lost (C59); misspelt keys are ignored (C62);
the local program cannot predict with federated trees (C63).

## Appendix: what Print Assumptions lists for each theorem

`closed` = "Closed under the global context". Short names: SF = ClassicalDedekindReals.sig_forall_dec, SN = ClassicalDedekindReals.sig_not_dec, FE = FunctionalExtensionality.functional_extensionality_dep, CL = Classical_Prop.classic.

* P_AffineLeak.v — closed: C81_equal, C81_modulus, C81_secret_refuted, C81_weak_key
* P_Array.v — closed: C78_decrypt, C78_decrypt_table, C78_encrypt, C78_table_refuted
* P_Binning.v — closed: C28_bin, C28_monotone, C28_threshold, C28_dense_row, C28_fitted_refuted, C29_sparse, C29_prepare, C30_overwritten, C30_kept_refuted
* P_Boost.v — closed: C48_labels, C48_too_many, C48_mixed, C48_predict, C49_sample, C47_boost_plain, C47_boost_paillier, C40_boost_plain, C40_boost_paillier, C45_plain, C45_paillier, C45_predict_plain, C45_predict_paillier, C45_exact, C46_plain, C46_paillier, C50_plain, C50_paillier, C46_mismatch_refuted
* P_Cipher.v — closed: C21_roundtrip, C21_product, C21_no_key, C22_expressions, C22_leaf_encoding, C22_outside, C22_generate, C22_bad_key, C22_unsupported, C22_window_refuted
* P_Close.v — closed: C77_plain, C77_paillier, C77_gone, C77_empty_read, C77_death_refuted
* P_Cols.v — closed: C84_chosen, C84_rejected, C84_distinct, C84_all, C84_position_refuted, C84_negative_refuted
* P_DTable.v — closed: C01_construct_keyed, C01_construct_unkeyed, C02_history_refines_finite_maps, C02_mapPartitions_total, C02_mapPartitions_raises, C03_join, C03_union, C03_subtractByKey, C03_filter, C03_map, C03_mapValues, C04_reduce_folds, C04_reduce_restarts_after_None, C04_mapReducePartitions, C04_take_first
* P_EncryptMode.v — closed: C19_int, C20_keys, C20_fast_keys, C19_float, C20_all_rows_refuted
* P_FixedPoint.v — closed: C09_int_roundtrip, C09_int_rejected, C10_float_error, C10_float_ties, C10_float_total, C10_lossless_refuted, C11_add, C11_add_scalar, C11_sub, C11_rsub, C11_mul, C11_mul_scalar, C11_compare, C11_compare_scalar, C11_custom_modulus_refuted
* P_FloatSplit.v — closed: C74_near, C74_exact, C74_zero_bin_refuted, C75_near_best, C75_best_refuted
* P_FloatTree.v — closed: C76_near_tree, C76_same_tree, C76_near_tie_refuted
* P_Hist.v — closed: C31_bins, C31_accumulated, C32_stored_only, C33_encrypted
* P_Input.v — closed: C56_labelled, C56_unlabelled, C56_errors, C56_columns, C56_short_row, C56_every_file, C56_blank_refuted, C56_ragged_refuted, C57_partition, C57_size, C57_extremes, C57_aligned, C57_tables, C57_order_refuted, C61_accuracy, C61_empty
* P_Keygen.v — closed: C80_first, C80_outcomes, C80_key, C80_roundtrip, C80_odd, C80_never, C80_ends_refuted
* P_Leak.v — closed: C69_difference, C69_labels
* P_Local.v — closed: C63_tree, C63_encryption, C63_boost, C63_predict, C63_foreign, C64_tree, C64_boost, C64_boost_all, C64_near_tie_refuted
* P_Loss.v — CL, FE, SF, SN: C51_sigmoid, C51_softmax, C51_huber, C51_fair, C51_log_cosh, C52_tweedie_refuted, C52_tweedie_sign, C53_sigmoid, C53_softmax, C53_others, C53_softplus
* P_Loss.v — FE, SF: C51_lse, C51_loss, C52_lae, C52_lae_refuted, C52_lae_else, C53_hard_sigmoid, C53_softsign
* P_Loss.v — FE, SF, SN: C53_two
* P_Merge.v — closed: C82_partitions, C82_encrypted, C82_masks_refuted
* P_Mode.v — closed: C68_finishes, C68_trees, C68_rounds, C68_predict, C68_strict, C68_age
* P_Operator.v — closed: C72_diff, C72_weights, C72_in_place, C72_in_place_refuted, C73_small, C73_lengths, C73_raises, C73_rows, C73_error, C73_scaling_refuted, C73_reduce, C73_reduce_kinds, C73_reduce_values, C73_norm, C73_reduce_lengths, C73_reduce_refuted
* P_Paillier.v — closed: C12_roundtrip, C12_bad_factors, C13_bad_obfuscator, C13_roundtrip_refuted, C14_product, C14_power, C14_inverse, C14_no_inverse, C14_obfuscate, C15_encrypt, C15_encrypt_given, C15_decrypt, C15_add, C15_sub, C15_add_scalar, C15_scalar_sub, C15_mul, C15_neg, C15_increase, C16_two_terms, C16_three_terms_refuted, C17_gradient_sums, C18_not_encrypted, C18_foreign_key, C18_mixed_keys
* P_Param.v — closed: C58_accepts, C58_rejects, C58_idempotent, C58_unchecked, C58_nan_refuted, C58_mode_refuted, C58_none, C58_mode, C58_predict, C58_evaluate, C58_evaluate_accepts, C58_cv, C58_binning, C58_transform
* P_Pipe.v — closed: C65_plain, C65_paillier, C65_again_plain, C65_again_paillier, C65_reused, C65_reused_refuted
* P_Predict.v — closed: C41_predict, C41_absent, C41_dropped_refuted, C42_plain, C42_paillier, C44_leak, C43_fields, C43_predictions, C43_overflow, C43_always_saves_refuted, C44_guest_thresholds, C44_host_thresholds, C44_labels_hidden_refuted, C30_prediction_refuted
* P_Quantile.v — closed: C23_one_batch, C23_any_history, C24_rank, C24_monotone, C24_documented_refuted, C25_flush_keeps, C25_no_loss_refuted, C26_total, C26_merge, C26_merge_total_refuted, C26_abnormal_refuted, C26_uncompressed_refuted, C27_sorted_refuted, C27_one_sided, C60_dense_increasing
* P_Rule.v — closed: C79_accepts, C79_exactly, C79_sections_ignored, C79_errors, C79_sections_refuted, C79_all_rules_refuted
* P_Run.v — closed: C59_runs, C59_lost, C59_test, C59_off, C59_stage, C59_output_refuted, C62_override, C62_no_section, C62_succeeds, C62_deep, C62_misspelt_refuted
* P_Script.v — closed: C66_no_test_plain, C66_no_test_paillier, C66_plain, C66_paillier, C66_ids_guest, C66_ids_host, C66_order_refuted
* P_Socket.v — closed: C67_plain, C67_paillier, C67_split_refuted, C67_no_number
* P_Split.v — closed: C34_local_split, C34_never_last_bin, C35_host_search, C35_same_as_plaintext, C36_chosen, C36_every_node, C36_no_placeholder, C36_gain_roundtrip, C36_no_host_refuted, C37_weight_optimal, C37_gain_is_drop, C37_gain_lower_bound, C37_gain_nonneg_refuted
* P_Statistics.v — closed: C54_order, C54_exact, C54_error, C54_integers, C54_negative_refuted, C54_maximum_refuted, C54_columns, C54_aggregate, C54_partitions, C55_statistics, C55_quantile_point, C55_median, C55_initialize, C55_start, C55_fit
* P_SumDict.v — closed: C83_partitions, C83_counts, C83_same, C83_same_refuted, C83_columns_refuted, C83_sparse_query, C83_sparse
* P_Transfer.v — closed: C05_payload_fragmentation, C06_short_header_never_right, C06_any_fragmentation_refuted, C06_desynchronised_stream_raises_refuted, C06_negative_length, C06_leading_underscore, C07_closed_mid_message_never_returns, C07_closed_between_messages_raises, C08_send_to_all, C08_send_to_one, C08_send_bad_index, C08_recv_from_all, C08_recv_from_one, C08_recv_bad_index
* P_Tree.v — closed: C38_plain, C39_plain, C40_plain, C47_plain, C38_paillier, C39_paillier, C40_paillier, C47_paillier, C47_mismatch_refuted
* P_Xgb.v — closed: C70_accuracy, C70_short_host, C70_same_name, C70_same_name_refuted
* P_XgbJoin.v — closed: C71_same_accuracy, C71_near_tie_refuted

348 theorems in total.
