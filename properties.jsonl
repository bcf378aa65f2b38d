{"id": "C01", "title": "Table construction keeps exactly the given rows", "statement": "DTable(include_key=True, rows) succeeds exactly when the row keys are pairwise distinct and then collect() returns the given rows in the given order; with a repeated key it raises ValueError. DTable(include_key=False, values) always succeeds and collect() returns (0,v0),(1,v1),... in order.", "quantifier": "for every finite list of rows / values and every key and value type", "why_tests_cant": "Holds for lists of every length and any position of a duplicate; tests pick a few.", "anchors": ["computing/d_table.py: DTable.__init__, collect, count"]}
{"id": "C02", "title": "No table operation ever fails or breaks key uniqueness", "statement": "Starting from any constructed table, every finite sequence of map, mapValues, mapPartitions (with a function that returns a list), filter, join, union, subtractByKey succeeds (no ValueError from the internal reconstruction) and yields a table whose keys are pairwise distinct; the observable contents equal those of the corresponding operation on mathematical finite maps.", "quantifier": "for every initial table and every finite history of operations with arbitrary total functions as arguments", "why_tests_cant": "The claim is about every operation history; a test covers one history.", "anchors": ["computing/d_table.py: map, mapValues, mapPartitions, filter, join, union, subtractByKey"]}
{"id": "C03", "title": "join / union / subtractByKey / filter agree with finite-map algebra", "statement": "a.join(b,f) has exactly the common keys, in b's order, with value f(a[k],b[k]); a.union(b,f) has a's keys in a's order followed by b's new keys, with f(a[k],b[k]) on common keys and a[k] when no function is given; a.subtractByKey(b) and the restriction of a to b's keys partition a; filter keeps exactly the rows satisfying the predicate, in order.", "quantifier": "for all pairs of tables and all functions", "why_tests_cant": "Quantifies over all tables, overlaps and insertion orders.", "anchors": ["computing/d_table.py: join, union, subtractByKey, filter"]}
{"id": "C04", "title": "reduce folds the values left to right, with None as the restart value", "statement": "reduce(f) returns None on an empty table and otherwise the left fold of f over the values in insertion order, provided no value and no intermediate result is None; in general every time the accumulator is None the next value replaces it, so None values at the start are skipped. mapReducePartitions(f,g) produces one row for each key emitted by f, in order of first emission, holding the left fold of g over the values emitted for that key in order.", "quantifier": "for all tables, all functions, including functions returning None", "why_tests_cant": "The interaction of None with the fold only shows on particular histories of intermediate results.", "anchors": ["computing/d_table.py: reduce, mapReducePartitions, first, take"]}
{"id": "C05", "title": "Messages survive any fragmentation of the payload", "statement": "For every sequence of serialised messages sent over one connection with send_data and every way the transport may cut the byte stream, provided each 16-byte header is delivered by one recv call, successive recv_data calls return exactly those byte strings in order and leave the rest of the stream untouched.", "quantifier": "for every list of messages (each shorter than 10^16 bytes) and every schedule of short reads of the payload", "why_tests_cant": "The number of ways a stream can be cut is unbounded; tests over loopback never see short reads.", "anchors": ["federation/transfer_inst.py: TransferInst.send_data, TransferInst.recv_data"]}
{"id": "C06", "title": "A fragmented header breaks the framing (defect)", "statement": "recv_data reads the header with one recv(16). If that call returns fewer than 16 bytes the declared length is misread or the call raises ValueError: there is a message and a fragmentation for which recv_data returns a byte string different from the one sent, and one for which it raises.", "quantifier": "existential witness over messages and fragmentations; also universally: when the first recv of the header returns fewer digits than the decimal length has, the returned message is never the one sent", "why_tests_cant": "Depends on a read schedule the test environment does not produce.", "anchors": ["federation/transfer_inst.py: TransferInst.recv_data"]}
{"id": "C07", "title": "A peer that closes mid-message makes the receiver spin for ever (defect)", "statement": "If the connection is closed after a header announcing L bytes and fewer than L payload bytes, recv_data never returns and never raises: after any number of loop iterations it is still looping.", "quantifier": "for every message, every proper prefix of its payload at which the peer stops, every fragmentation and every number of iterations", "why_tests_cant": "Non-termination at every crash point cannot be observed by a finite test.", "anchors": ["federation/transfer_inst.py: TransferInst.recv_data"]}
{"id": "C08", "title": "Guest routing of messages to hosts", "statement": "send_data_to_hosts(d,-1) delivers d exactly once to every host and nothing else; with 0<=i<#hosts it delivers d to host i only; any other index raises ValueError and sends nothing. recv_data_from_hosts(-1) returns one message per host in connection order; with 0<=i<#hosts that host's next message.", "quantifier": "for every number of hosts, every index (any integer) and every state of the connections", "why_tests_cant": "Quantifies over all indices and host counts.", "anchors": ["federation/transfer_inst.py: TransferInstGuest.send_data_to_hosts, recv_data_from_hosts"]}
{"id": "C09", "title": "Fixed-point encoding of integers is exact, or rejected", "statement": "encode(z) stores every integer with |z|*16^max(max_exponent,0) <= max_int without loss, and raises ValueError for every other integer. With exponent 0 decode() returns the int z itself; with a positive exponent decode() returns a float: z itself when z is a double, otherwise within relative 2^-53, and OverflowError when the mantissa exceeds the float range.", "quantifier": "for every integer z, modulus n >= 6, max_int = n//3-1 and every max_exponent", "why_tests_cant": "Infinite domain with the boundary at a 128-bit value.", "anchors": ["ml/secureprotol/fixedpoint.py: FixedPointNumber.encode, decode"]}
{"id": "C10", "title": "Fixed-point encoding of floats is within half a unit, not exact (defect)", "statement": "For a float x that is not rejected, the decoded value differs from x by at most half of 16^-exponent, which is a relative error of at most 2^-50; zero and |x|<1e-200 decode to 0, and a float halfway between two encodable values gets the one with the even mantissa. The encoding is NOT lossless: up to three low mantissa bits are dropped because the exponent is rounded down, and there is a double whose round trip differs from it.", "quantifier": "for every finite double x with |x|*16^exponent <= max_int, any precision, any max_exponent", "why_tests_cant": "Needs every double; the loss appears only for particular binades and low bits.", "anchors": ["ml/secureprotol/fixedpoint.py: FixedPointNumber.encode, decode"]}
{"id": "C11", "title": "Fixed-point arithmetic", "statement": "With the default modulus, x+y and x-y of encoded numbers hold exactly the sum/difference of the operands' values whenever the aligned result fits max_int (for x-y: subtrahend mantissa at most 53 bits), x*y holds the product within relative 2^-49 (exactly for integers), and comparisons of numbers with mantissas up to 53 bits agree with the comparison of their values. With a caller-supplied modulus n, addition reduces modulo the class constant Q instead of n, so the sum is wrong (defect, witness).", "quantifier": "for all operands whose aligned result fits max_int", "why_tests_cant": "Overflow and modulus effects appear only for particular magnitudes and signs.", "anchors": ["ml/secureprotol/fixedpoint.py: __add_fixpointnumber, __sub_fixpointnumber, __mul_fixpointnumber, __rsub__, comparisons"]}
{"id": "C12", "title": "Paillier decryption inverts encryption for every key, message and random value", "statement": "For all distinct primes p,q (in either order), n=p*q, every plaintext 0<=m<n and every obfuscation value r coprime to n, constructing the private key succeeds and raw_decrypt(raw_encrypt(m,r)) = m, including for plaintexts in the negative range that take the inverse shortcut.", "quantifier": "for all primes p<>q, all m, all r coprime to n", "why_tests_cant": "Number-theoretic identity over all keys; tests sample one key.", "anchors": ["ml/secureprotol/fate_paillier.py: PaillierPublicKey.raw_encrypt, apply_obfuscator, PaillierPrivateKey.__init__, raw_decrypt, h_func, l_func, crt", "ml/secureprotol/gmpy_math.py: powmod, invert"]}
{"id": "C13", "title": "Obfuscation with a value sharing a factor with n destroys the plaintext (defect)", "statement": "randrange(1,n) may return a multiple of p or q; the code does not check. For such a value decryption of the obfuscated ciphertext does not return the plaintext: decryption after obfuscation by r is correct for every plaintext only if gcd(r,n)=1.", "quantifier": "for all distinct primes p,q and every r in [1,n) not coprime to n there is a plaintext that is decrypted wrongly; for a concrete key the witness is computed", "why_tests_cant": "Probability is negligible, so a test never sees it.", "anchors": ["ml/secureprotol/fate_paillier.py: PaillierPublicKey.apply_obfuscator"]}
{"id": "C14", "title": "Paillier addition and scalar multiplication are homomorphic", "statement": "For every two ciphertexts produced under a key, decryption of their product mod n^2 is the sum of the decryptions mod n; raising to k multiplies the plaintext by k mod n; the modular inverse negates it; re-obfuscation with any unit leaves the plaintext unchanged.", "quantifier": "for all keys, all ciphertexts that are units mod n^2 (all reachable ones are), all k>=0", "why_tests_cant": "Algebraic law over all ciphertexts.", "anchors": ["ml/secureprotol/fate_paillier.py: PaillierEncryptedNumber.__raw_add, __mul__, apply_obfuscator"]}
{"id": "C15", "title": "Encrypted-number arithmetic computes the plaintext arithmetic", "statement": "For encrypted numbers a,b with different exponents and scalars s, decrypt(a+b), decrypt(a-b), decrypt(a+s), decrypt(s-a), decrypt(a*s), decrypt(-a via a*-1) equal the exact sum, difference and product of decrypt(a), decrypt(b) and the encoded s, whenever the aligned result mantissa is at most max_int in magnitude and the alignment factor is encodable; a result with positive exponent is rounded once, to the nearest double.", "quantifier": "for all keys, all encrypted numbers and exponents, all scalars", "why_tests_cant": "Depends on every combination of exponents and signs.", "anchors": ["ml/secureprotol/fate_paillier.py: PaillierEncryptedNumber.__add__, __sub__, __rsub__, __mul__, increase_exponent_to, __align_exponent, __add_scalar, __add_fixpointnumber, __add_encryptednumber", "ml/secureprotol/fixedpoint.py"]}
{"id": "C16", "title": "A two-term encrypted sum never overflows silently; a three-term sum can (defect)", "statement": "If a and b are in the representable range with the same exponent then decrypting a+b either returns the exact sum or raises OverflowError. With three terms there are in-range values whose encrypted sum decrypts, without error, to a wrong number.", "quantifier": "for all keys n>=6 and all in-range mantissas; witness for three terms", "why_tests_cant": "Boundary of a thousand-bit range.", "anchors": ["ml/secureprotol/fate_paillier.py: PaillierEncryptedNumber.__add_encryptednumber, PaillierPrivateKey.decrypt", "ml/secureprotol/fixedpoint.py: decode"]}
{"id": "C17", "title": "Gradient sums never overflow with the key sizes in use", "statement": "With a modulus of at least 2^1000, the encrypted sum of any number up to 2^200 of encrypted values, each of magnitude at most 1 (zero or at least 1e-200), taken in any order and grouping and with subtraction of sub-sums, never raises, holds exactly the sum of the individually encoded values, and decrypts to that sum (rounded once to the nearest double when the exponent is positive).", "quantifier": "for every list of values of any length up to the bound and every expression tree over them", "why_tests_cant": "The bound covers astronomically many expressions; tests run tiny ones.", "anchors": ["ml/secureprotol/fate_paillier.py", "ml/secureprotol/fixedpoint.py", "ml/tree/feateur_histogram.py"]}
{"id": "C18", "title": "Decryption rejects foreign ciphertexts", "statement": "decrypt of an object that is not an encrypted number raises TypeError, of a number under another public key raises ValueError, and adding numbers under different keys raises ValueError; none of these returns a value.", "quantifier": "for all keys and ciphertexts", "why_tests_cant": "Quantifies over all pairs of keys.", "anchors": ["ml/secureprotol/fate_paillier.py: PaillierPrivateKey.decrypt, PaillierEncryptedNumber.__add_encryptednumber"]}
{"id": "C19", "title": "Re-encryption modes give the same plaintext for every call history", "statement": "For every sequence of calls to the encryption-mode calculator on tables with the same key set, in modes strict, fast and balance and for every outcome of the random draws, each returned table has the keys of the table passed in that call and decrypts to it: exactly for integers, and for floats of absolute value at most B up to (i+2)*2^-47*B at call number i.", "quantifier": "for every call history, mode, rate and random outcome", "why_tests_cant": "Fast/balance outputs depend on the whole history of previous calls.", "anchors": ["ml/secureprotol/encrypt_mode.py: EncryptModeCalculator.encrypt, get_differance, add_differance"]}
{"id": "C20", "title": "Fast mode silently drops rows that were absent from the previous call (defect)", "statement": "In fast mode (and in balance mode when no re-encryption is drawn), the returned table has exactly the keys of the current input that were also present in all calls since the last full encryption; rows with new keys vanish without an error.", "quantifier": "for every call history with changing key sets; witness of a lost row", "why_tests_cant": "Only visible on histories with changing key sets.", "anchors": ["ml/secureprotol/encrypt_mode.py: EncryptModeCalculator.encrypt"]}
{"id": "C21", "title": "RSA encrypt/decrypt round trip", "statement": "For distinct primes p,q, exponents with e*d = 1 modulo lcm(p-1,q-1) (hence also modulo (p-1)(q-1)), decrypt(encrypt(m)) = m for every 0<=m<n; without a key both return None.", "quantifier": "for all keys and all m", "why_tests_cant": "Number-theoretic identity.", "anchors": ["ml/secureprotol/encrypt.py: RsaEncrypt.encrypt, decrypt"]}
{"id": "C22", "title": "Affine cipher: sums and integer multiples decrypt correctly inside the sign window", "statement": "For every key with gcd(a,n)=1 and every expression built from ciphertexts by +, - and integer multiplication, decryption of the expression equals the expression evaluated on the encoded plaintexts whenever that integer lies in [-0.0999999 n, 0.8999999 n]; beyond -0.1000001 n or 0.9000001 n the result is always wrong, without an error (witness). Division and adding a non-zero number always fail.", "quantifier": "for all keys, all expressions of any size", "why_tests_cant": "Expressions and multiplicities are unbounded.", "anchors": ["ml/secureprotol/affine.py: AffineCipherKey, AffineCiphertext", "ml/secureprotol/affine_encoder.py"]}
{"id": "C23", "title": "One-batch quantile summaries have exact rank book-keeping", "statement": "While at most head_size values have been inserted, after compress() the summary is sorted, contains only inserted values, keeps the minimum and the maximum, its weights sum to the number of inserted values and the running weight at each sample is exactly its position in the sorted data.", "quantifier": "for every list of at most head_size values, every error in [0,1) and every compress threshold", "why_tests_cant": "Invariant over all insertion sequences.", "anchors": ["ml/feature/quantile_summaries.py: QuantileSummaries.insert, _insert_head_buffer, compress, _compress_immut"]}
{"id": "C24", "title": "One-batch quantile query has bounded rank error and is monotone", "statement": "For at most head_size values, query(q) returns an inserted value whose position in sorted order differs from ceil(q*N) by at most ceil(error*N)+1, and q1<=q2 implies query(q1)<=query(q2). The documented bound floor((q-2*error)*N) <= rank <= ceil((q+2*error)*N) is violated for small q (witness).", "quantifier": "for every data list up to head_size, every q in [0,1], every error", "why_tests_cant": "Rank guarantee over all data sets and all q.", "anchors": ["ml/feature/quantile_summaries.py: QuantileSummaries.query", "ml/param/feature_binning_param.py: documented error"]}
{"id": "C25", "title": "After the buffer is flushed twice the sketch loses data (defect)", "statement": "When more than head_size values are inserted, previously stored samples larger than the newest batch are discarded: there are inputs for which the maximum is lost, the weights no longer sum to the count and a query answers with an arbitrarily wrong rank. In general, flushing a batch keeps exactly the stored samples not greater than the batch maximum.", "quantifier": "for every summary state and every batch; concrete witness", "why_tests_cant": "Needs more than 10000 rows per feature in production settings.", "anchors": ["ml/feature/quantile_summaries.py: QuantileSummaries._insert_head_buffer"]}
{"id": "C26", "title": "Sparse quantile queries never fail for a legal quantile", "statement": "After compress(), for every list of inserted values (no abnormal list), every total row count between their number and 2^53, and every double q in [0,1], the converted percentile lies in [0,1], so query returns a value: 0 when q falls in the zero band and otherwise an inserted value; no exception is possible. With an abnormal list a legal query can raise ValueError, and before compress() ZeroDivisionError (witnesses).", "quantifier": "for all inserted lists, total counts and q", "why_tests_cant": "Boundary arithmetic over all counts.", "anchors": ["ml/feature/quantile_summaries.py: SparseQuantileSummaries.query, _convert_query_percentile, zero_lower_bound, zero_upper_bound"]}
{"id": "C27", "title": "Sparse split points can come out unsorted (defect)", "statement": "Fitting split points on sparse data can return a list that is not increasing (witness). If a column's stored values all lie on one side of zero, the list is strictly increasing; in every case the points are distinct, at most bin_num-1, and each is 0 or a stored value.", "quantifier": "witness data set", "why_tests_cant": "Arises only for particular small counts of negatives and zeros.", "anchors": ["ml/feature/quantile_summaries.py: SparseQuantileSummaries", "ml/feature/binning/quantile_binning.py: fit_split_points", "ml/feature/binning/base_binning.py: get_bin_num"]}
{"id": "C28", "title": "Binning is monotone and faithful to the split points", "statement": "For increasing split points sp and any value v, the bin b of v is the unique index with sp[b-1] < v <= sp[b] (with -inf/+inf at the ends); bins are monotone in v; and v <= sp[t] holds exactly when bin(v) <= t. Hence comparing bins in training and comparing raw values in prediction send every row the same way.", "quantifier": "for all increasing split point lists and all values", "why_tests_cant": "Quantifies over all thresholds and values.", "anchors": ["ml/feature/binning/base_binning.py: Binning.get_bin_num, get_sparse_bin, convert_feature_to_bin"]}
{"id": "C29", "title": "Sparse conversion keeps every non-negligible feature value", "statement": "Converting a dense row to a sparse vector keeps exactly the entries of magnitude at least 1e-6 with their indices; reading feature i back with default 0 gives the original entry, or 0 if it was below 1e-6 in magnitude; already sparse rows are unchanged. Sparse binning keeps the index set and replaces every value by its bin.", "quantifier": "for all rows of any length", "why_tests_cant": "All rows, all index patterns.", "anchors": ["ml/tree/boosting_tree.py: data_format_transform, data_alignment", "ml/feature/sparse_vector.py: SparseVector", "ml/feature/binning/base_binning.py: _convert_sparse_data"]}
{"id": "C30", "title": "fit overwrites the caller's training rows (defect)", "statement": "After binning, the instances in the table the caller passed to fit hold bin numbers instead of raw feature values, because the rows are mutated in place and shared. Predicting on the same table afterwards compares bin numbers with raw thresholds and can return different leaves than the model assigns to the raw data.", "quantifier": "for every training table and heap in which rows are shared; witness of a changed prediction", "why_tests_cant": "An aliasing effect; tests on fresh test data do not see it.", "anchors": ["ml/tree/boosting_tree.py: data_format_transform", "ml/feature/binning/base_binning.py: _convert_sparse_data, _convert_dense_data", "ml/model_base.py: _run_data"]}
{"id": "C31", "title": "Histograms are exact per node, feature and bin", "statement": "For every assignment of rows to nodes and every valid feature, entry (node,feature,bin) of the histogram, before accumulation, equals the sum of (grad, hess, 1) over exactly the rows that sit in that unfinished node and whose value for the feature (the zero-bin when absent) is that bin; after accumulation entry b is the sum over bins <= b and the last entry is the node total, equal for all features.", "quantifier": "for all data sets, node assignments, batches of nodes, sparse patterns and valid-feature masks", "why_tests_cant": "All data sets and assignments; the zero-bin mass is reconstructed by subtraction.", "anchors": ["ml/tree/feateur_histogram.py: FeatureHistogram.batch_calculate_histogram, calculate_histogram, accumulate_histogram, aggregate_histogram"]}
{"id": "C32", "title": "Without a feature mask the histogram loses the zero-bin rows (defect)", "statement": "With valid_features=None the mass of rows in which the feature is zero is never added, so bin counts do not sum to the number of rows.", "quantifier": "for every data set in which some row lacks the feature; witness", "why_tests_cant": "Depends on sparsity pattern and an optional argument.", "anchors": ["ml/tree/feateur_histogram.py: batch_calculate_histogram"]}
{"id": "C33", "title": "Histograms commute with encryption", "statement": "Running the same histogram code on ciphertexts and decrypting every cell gives the histogram of the (encoded) plaintexts; no exception is raised, although empty cells hold the integer 0 instead of a ciphertext.", "quantifier": "for all data sets, assignments and keys within the no-overflow bound", "why_tests_cant": "All data sets; mixture of plain zero and ciphertext depends on the sparsity pattern.", "anchors": ["ml/tree/feateur_histogram.py", "ml/secureprotol/fate_paillier.py"]}
{"id": "C34", "title": "The local split is the first best admissible one", "statement": "The guest's split search returns the first (feature, bin) in scan order maximising the gain among valid features, non-last admissible bins with at least min_leaf_node rows on both sides and gain above min_impurity_split, when the node has at least min_sample_split rows; if there is none it returns no feature and a gain below min_impurity_split. The reported left sums are those of that bin.", "quantifier": "for all histograms, masks and parameter values", "why_tests_cant": "All histograms; tie-breaking and thresholds.", "anchors": ["ml/tree/splitter.py: find_split_single_histogram_guest, find_split", "ml/tree/creterion.py"]}
{"id": "C35", "title": "Host-side search through encrypted candidates equals the plaintext search", "statement": "The host's candidate enumeration, the guest's decryption and index selection, and the host's lookup of the chosen index together give the same feature, bin, left sums and gain as running the plaintext search on the host's decrypted histogram.", "quantifier": "for all histograms and node sums", "why_tests_cant": "Index bookkeeping across two parties for every histogram.", "anchors": ["ml/tree/splitter.py: find_split_host, find_split_single_histogram_host", "ml/tree/hetero_decision_tree_guest.py: find_host_split, federated_find_split", "ml/tree/hetero_decision_tree_host.py: sync_final_splitinfo_host, encode_split_info"]}
{"id": "C36", "title": "The chosen split is globally best up to the guest preference", "statement": "The split finally chosen for a node has gain at least the maximum over the guest's and every host's best gain minus 1e-6; the guest's split is chosen whenever it is within 1e-6 of the best host, and the placeholder of a host without an admissible split is never chosen, so the guest never tries to decrypt a placeholder.", "quantifier": "for every number of hosts and all gains", "why_tests_cant": "All combinations of parties and gains.", "anchors": ["ml/tree/hetero_decision_tree_guest.py: find_best_split_guest_and_host, merge_splitinfo"]}
{"id": "C37", "title": "Leaf weight is optimal, gain is the drop of the objective and is bounded below", "statement": "When H+lambda > 0 the leaf weight is the unique minimiser of G*w + (H+lambda)*w^2/2 and the minimum is -G^2/(2(H+lambda)). The reported split gain is exactly twice the drop of that objective when one optimal leaf is replaced by two. With non-negative hessians and lambda >= 0 the gain is at least -lambda*G^2/((H+lambda)(H+2 lambda)), hence non-negative for lambda = 0; for lambda > 0 it can be negative.", "quantifier": "for all rational gradient and hessian sums and all lambda", "why_tests_cant": "Inequality and optimality over all rationals.", "anchors": ["ml/tree/creterion.py: XgboostCriterion.split_gain, node_gain, node_weight"]}
{"id": "C38", "title": "Every fitted tree is well formed", "statement": "In the tree produced by fit: entry k has id k, the root is entry 0, every internal node's children are later entries and each non-root entry is the child of exactly one node, leaves have no children and carry weight -G/(H+lambda), a parent's sums equal the sums of its children, depth is at most max_depth-1 splits and the number of nodes is at most 2^max_depth-1.", "quantifier": "for all data, parameters, number of hosts and all split outcomes", "why_tests_cant": "Invariant of an unbounded growth process.", "anchors": ["ml/tree/hetero_decision_tree_guest.py: fit, update_tree_node_queue", "ml/tree/node.py"]}
{"id": "C39", "title": "Every training row reaches exactly one leaf", "statement": "After fit, predict_weights has exactly the keys of the training table, and the value for each key is the weight of the leaf reached by following, from the root, the bin comparisons of the owning parties.", "quantifier": "for all data sets, trees and parties", "why_tests_cant": "Invariant over rounds of dispatch between parties.", "anchors": ["ml/tree/hetero_decision_tree_guest.py: dispatch_node, redispatch_node, dispatch_all_node_to_root, fit", "ml/tree/hetero_decision_tree_host.py: dispatch_node, find_dispatch"]}
{"id": "C40", "title": "Federated training equals centralised training", "statement": "The tree grown by the guest with any number of hosts, never seeing host features and hosts never seeing plaintext gradients, is the tree grown by a single-party recursive greedy algorithm on the joined data: same splits, same owner, same thresholds, same leaf weights (with host sums taken over the encoded gradients).", "quantifier": "for all data sets, vertical partitions, number of hosts, parameters", "why_tests_cant": "The headline losslessness claim; quantifies over all data sets.", "anchors": ["ml/tree/hetero_decision_tree_guest.py: fit", "ml/tree/hetero_decision_tree_host.py: fit", "ml/tree/splitter.py", "ml/tree/feateur_histogram.py"]}
{"id": "C41", "title": "Federated prediction equals centralised prediction and terminates", "statement": "For every well-formed tree and hosts owning disjoint site names, the prediction protocol terminates after at most depth+1 rounds, returns a weight for exactly those guest keys that are present at all parties or meet only guest nodes, equal to traversing the joined tree on the joined row. If a host with nodes in the tree does not take part, it never returns.", "quantifier": "for all trees, rows, number of hosts", "why_tests_cant": "Rounds between parties depend on the tree; unbounded.", "anchors": ["ml/tree/hetero_decision_tree_guest.py: traverse_tree, predict", "ml/tree/hetero_decision_tree_host.py: traverse_tree, predict"]}
{"id": "C42", "title": "Fit-time and predict-time leaf agree on the training data", "statement": "Predicting the raw (not overwritten) training rows with the fitted tree returns, for each row and on every schedule, exactly the leaf weight that fit recorded for it. Split points need not be increasing: a chosen split bin is never empty.", "quantifier": "for all data sets and trees", "why_tests_cant": "Connects two code paths (bins versus raw values) for all inputs.", "anchors": ["ml/tree/hetero_decision_tree_guest.py: convert_bin_to_real, dispatch_node, traverse_tree", "ml/tree/hetero_decision_tree_host.py: convert_bin_to_real, dispatch_node, traverse_tree"]}
{"id": "C43", "title": "Saving and loading a tree preserves every prediction", "statement": "load_model(get_model()) yields a tree with the same predictions on every row, although unset feature ids and sums come back as 0. Saving fails with ValueError when a number does not fit into an int32.", "quantifier": "for all trees and rows", "why_tests_cant": "Quantifies over all trees.", "anchors": ["ml/tree/hetero_decision_tree_guest.py: get_model_meta, get_model_param, load_model", "ml/tree/hetero_decision_tree_host.py: same", "ml/protobuf"]}
{"id": "C44", "title": "Thresholds stay at the owning party; tree structure and sums do not (defect)", "statement": "No message from guest to hosts carries a guest threshold, and node-queue messages carry node ids only; but the final tree message carries every leaf weight, gradient sum and guest feature id: two runs that differ only in labels can be told apart by a host.", "quantifier": "for all runs; witness for the leak", "why_tests_cant": "Information-flow claim over all runs.", "anchors": ["ml/tree/hetero_decision_tree_guest.py: sync_tree_node_queue, sync_tree, encode, decode"]}
{"id": "C45", "title": "Scores accumulate exactly learning_rate times the leaf weights", "statement": "After any number of boosting rounds the score of each training row equals the initial score plus learning_rate times the sum of its leaf weights, per class; prediction of the same rows with the stored trees, walking trees in round-major, class-minor order, gives the same scores.", "quantifier": "for all numbers of rounds, classes, rows", "why_tests_cant": "Induction over rounds.", "anchors": ["ml/tree/hetero_secureboosting_tree_guest.py: update_f_value, accumulate_f, predict_f_value, fit"]}
{"id": "C46", "title": "Guest and host agree on when to stop and on the number of trees", "statement": "For every loss sequence the host fits exactly as many trees as the guest; training stops after the first round whose loss change is below tol (when early stop is enabled) and otherwise after num_trees rounds.", "quantifier": "for every loss history, tolerance and setting", "why_tests_cant": "All histories.", "anchors": ["ml/optim/convergence.py: DiffConverge", "ml/tree/hetero_secureboosting_tree_guest.py: fit", "ml/tree/hetero_secureboosting_tree_host.py: fit"]}
{"id": "C47", "title": "Training protocol never deadlocks and is schedule independent", "statement": "With matching parameters, for every interleaving of the parties' steps over FIFO channels, training runs to completion with every message consumed by the receive that expects it, and the resulting models do not depend on the interleaving.", "quantifier": "for every schedule, number of hosts, depth, batch count and data", "why_tests_cant": "All interleavings.", "anchors": ["ml/tree/hetero_decision_tree_guest.py: fit", "ml/tree/hetero_decision_tree_host.py: fit", "ml/tree/hetero_secureboosting_tree_guest.py: fit", "ml/tree/hetero_secureboosting_tree_host.py: fit", "federation/transfer_inst.py"]}
{"id": "C48", "title": "Labels are mapped bijectively and predictions map back", "statement": "For every label column (ints or strings), the internal label of each row is the rank of its label among the sorted distinct labels, lies in [0, number of classes), and classes_[internal label] is the original label.", "quantifier": "for every label column", "why_tests_cant": "All label sets and types.", "anchors": ["ml/tree/hetero_secureboosting_tree_guest.py: check_label, set_y, predict", "ml/utils/classfiy_label_checker.py"]}
{"id": "C49", "title": "Feature subsampling picks the documented number of distinct features", "statement": "sample_valid_features marks exactly max(1, int(rate*n)) of the n features valid, for every rate in (0,1] and every random draw, and never fails for n>=1.", "quantifier": "for every n, rate and draw", "why_tests_cant": "All draws.", "anchors": ["ml/tree/hetero_secureboosting_tree_guest.py: sample_valid_features"]}
{"id": "C50", "title": "Feature importance counts", "statement": "With importance type 'split' the importance of a feature over all trees is the number of internal nodes owned by this party that split on it, and with 'gain' the sum of their gains.", "quantifier": "for every history of splits", "why_tests_cant": "All histories.", "anchors": ["ml/tree/hetero_decision_tree_guest.py: update_feature_importance", "ml/tree/hetero_secureboosting_tree_guest.py: update_feature_importance"]}
{"id": "C51", "title": "Gradients and hessians are the derivatives of the losses", "statement": "For sigmoid cross entropy, softmax cross entropy, least squares, Huber, Fair and log-cosh losses compute_grad and compute_hess are the first and second derivatives of the loss in the prediction, at every point.", "quantifier": "for all real labels and predictions", "why_tests_cant": "Calculus identity over the reals.", "anchors": ["ml/loss/cross_entropy.py", "ml/loss/regression_loss.py", "ml/optim/activation.py"]}
{"id": "C52", "title": "Tweedie gradient and least-absolute-error gradient are wrong (defect)", "statement": "The Tweedie gradient is not the derivative of the Tweedie loss; the least-absolute-error gradient of an array returns -1 where the residual is zero instead of 0.", "quantifier": "witnesses", "why_tests_cant": "Needs the analytic derivative for comparison.", "anchors": ["ml/loss/regression_loss.py: TweedieLoss, LeastAbsoluteErrorLoss"]}
{"id": "C53", "title": "Sigmoid and softmax are proper probabilities", "statement": "The two-branch sigmoid equals 1/(1+exp(-x)), is strictly increasing and in (0,1) with sigmoid(-x)=1-sigmoid(x); softmax values lie in (0,1], sum to 1, are invariant under shifting all scores and preserve order. hard_sigmoid is the line through (-5/2,0) and (5/2,1) clipped to [0,1]; softsign is odd, increasing and in (-1,1); softplus has derivative sigmoid and lies within ln 2 above max(0,x).", "quantifier": "for all reals / vectors", "why_tests_cant": "Real-analysis facts over all inputs.", "anchors": ["ml/optim/activation.py"]}
{"id": "C54", "title": "Running statistics equal batch statistics and merge as concatenation", "statement": "After any sequence of additions and merges, count, sum, mean, variance, min and max equal those of the concatenated multiset (min/max when some value lies within +-2^63) in exact arithmetic, with variance the mean squared deviation, shown as 0 below 1e-6 and never negative; with doubles the sums stay within (1+2^-53)^n - 1 relative to the magnitudes, integer sums are exact while the squares add up to at most 2^53, but the variance of a constant column can come out negative and the standard deviation then raises (defect witness).", "quantifier": "for all sequences and all groupings", "why_tests_cant": "All groupings.", "anchors": ["ml/statistic/statics.py: SummaryStatistics"]}
{"id": "C55", "title": "Regression objectives cannot start training (defect)", "statement": "For every label table, the initial score computation of lse, huber, fair, tweedie and log_cosh raises TypeError (OverflowError if a label's square exceeds the double range) and that of lae raises AttributeError. Before that, a label that is no number raises ValueError, and huber, fair and tweedie without parameters raise TypeError, with an empty parameter list IndexError, fair with parameter None NameError. So for a regression task the guest raises before sending anything and the hosts wait forever.", "quantifier": "for every label table", "why_tests_cant": "Universal failure claim; there is no test for regression in the project.", "anchors": ["ml/loss/regression_loss.py: initialize", "ml/statistic/statics.py: _static_sums, static_in_partition, _get_quantile_median", "computing/d_table.py: mapPartitions", "ml/feature/binning/quantile_binning.py: fit_split_points"]}
{"id": "C56", "title": "CSV columns stay attached to their names", "statement": "A file is read successfully exactly when it is the rendering of a header line and records whose feature cells are all numbers, and the reader then returns the same ids, labels, header and numbers; in a rectangular file each number is at the position of its column name; a labelled row with fewer than two cells makes the reader raise. Defects (witnesses): the unlabelled reader turns a blank line into a row with empty id and no features, and rows longer or shorter than the header are accepted silently.", "quantifier": "for all files, line-break styles and numbers of columns, whatever float() accepts", "why_tests_cant": "All files; tests read the few bundled CSVs.", "anchors": ["i_o/utils.py: read_from_csv_with_lable, read_from_csv_with_no_lable"]}
{"id": "C57", "title": "Train/test split is a partition and is aligned between parties", "statement": "data_split returns two lists whose concatenation is a permutation of the input, of lengths int(n*ratio) (with n*ratio rounded as a float) and the rest, the first empty for ratio <= 0 and the second for ratio >= 1; two parties holding the same ids in the same order with the same ratio obtain row-aligned train and test tables whatever the random generator yields; if their files list ids in different orders the rows are silently misaligned (witness).", "quantifier": "for all lists, ratios, seeds and all random generators whose draws are in range", "why_tests_cant": "All permutations; the alignment of two parties' files is not visible to either one's tests.", "anchors": ["guest.py: data_split", "host.py: data_split"]}
{"id": "C58", "title": "Parameter checks accept exactly the documented values", "statement": "BoostingTreeParam.check succeeds exactly on the documented ranges, normalising only the case of names, and a second check changes nothing; it otherwise raises ValueError. Defects: NaN passes every range test, the encryption-mode, prediction and cross-validation parameters are never looked at, EncryptParam.check lets method=None through its type test and then raises AttributeError, TransformParam.check raises for every documented transform type.", "quantifier": "for all parameter values of any type", "why_tests_cant": "All values of all fields together, including values outside the documented types.", "anchors": ["ml/param/boosting_tree_param.py", "ml/param/encrypt_param.py", "ml/param/feature_binning_param.py", "ml/param/base_param.py"]}
{"id": "C59", "title": "Evaluation predictions are lost when train and eval data are given together (defect)", "statement": "The output of a component run is characterised for every stage: evaluation data alone gives the predictions of every evaluation row marked 'test', but when training and evaluation data are given together the output has exactly the keys of the training predictions and no evaluation row, because the union's result is discarded (witness); the last data set given wins, a component switched off hands its data through, and a loaded model is not fitted again.", "quantifier": "for all models and data sets", "why_tests_cant": "Universal over models; needs a component run with both inputs.", "anchors": ["ml/model_base.py: _run_data"]}
{"id": "C60", "title": "Dense split points are strictly increasing data values", "statement": "On a dense table with at most head_size rows, fit_split_points succeeds and returns, for every header name, a strictly increasing list of at most bin_num-1 split points, each of which is a non-abnormal value of that column (the single point 0 if the column has none).", "quantifier": "for all dense tables, headers without duplicates, bin numbers, thresholds and errors in [0,1]", "why_tests_cant": "Holds over all data sets; the binning and splitting code relies on it.", "anchors": ["ml/feature/binning/quantile_binning.py: fit_split_points, approxiQuantile, feature_summary", "ml/feature/quantile_summaries.py: QuantileSummaries", "ml/feature/binning/base_binning.py: _init_cols"]}
{"id": "C61", "title": "The printed accuracy is the fraction of agreeing rows", "statement": "The accuracy computed by the example guest program over label/prediction pairs is the number of agreeing rows divided by the number of rows, correctly rounded, lies in [0,1], and is 1 exactly when all rows agree; an empty test set raises ZeroDivisionError.", "quantifier": "for all tables of label/prediction pairs of up to 2^53 rows", "why_tests_cant": "All tables; rounding must not turn 'almost all' into 1.", "anchors": ["guest.py: test_hetero_secure_boost_guest", "computing/d_table.py: mapPartitions, reduce"]}
{"id": "C62", "title": "A configuration changes exactly the parameters it names", "statement": "After reading a configuration section into a parameter object every parameter has the configured value if the section names it and its former value otherwise, and no parameter appears or disappears; a section that has the nesting of the parameters is always read, up to six nested objects, deeper ones raise ValueError. Defect: names that do not exist and sections given as text are ignored silently (witness).", "quantifier": "for all parameter objects, configurations and paths", "why_tests_cant": "All nested objects and configurations.", "anchors": ["ml/utils/param_extract.py: parse_param_from_config, recursive_parse_param_from_config"]}
{"id": "C63", "title": "The program without a federation computes the same kind of model on one party's columns", "statement": "Training by one party that holds all columns and the labels terminates and yields, for every tree, the greedy tree of exact gains on its own columns (well formed, within the depth, weights -G/(H+lambda), every row with the weight of its leaf); boosting yields the trees of the centralised loop, scores that are the sums of learning_rate times weights, and as many rounds as the parameters say; predicting the training rows gives exactly the scores of training. If the encryption that the program performs and discards raises, training raises; a stored tree of a federated model makes prediction raise AttributeError as soon as one row reaches a host's node.", "quantifier": "for all data sets, gradients, parameters, numbers of classes, rounds and feature samples", "why_tests_cant": "Universal over data, trees and rounds; a test only compares a few runs.", "anchors": ["xgboost/hetero_decision_tree_guest.py: fit, find_best_split_guest_and_host, merge_splitinfo, redispatch_node, predict", "xgboost/hetero_secureboosting_tree_guest.py: fit, predict_f_value"]}
{"id": "C64", "title": "Vertical federation loses nothing against joined columns, except at near ties", "statement": "If at no node the best host's gain exceeds the guest's best gain by a positive amount of at most 10^-6, the federated model (on every schedule) and the model that the program without a federation trains on the joined columns are the same tree for tree: same splits up to the numbering of the columns, same number of nodes and rounds, same weights and scores for every row. At a near tie they can differ (witness: the federation splits on the guest's column, the other program on the host's, and a row gets another weight).", "quantifier": "for all data sets, numbers of hosts, parameters, rounds and schedules", "why_tests_cant": "Relates two programs on all inputs; the project's test script only prints the accuracy of one of them.", "anchors": ["ml/tree/hetero_decision_tree_guest.py: find_best_split_guest_and_host, merge_splitinfo", "ml/tree/splitter.py: find_split, find_split_once", "xgboost/hetero_decision_tree_guest.py: fit", "test_xgboost.py"]}
{"id": "C65", "title": "From tables of row objects to predictions", "statement": "For every legal input (row objects in memory, labels, parameters), fit with plain numbers or Paillier finishes at the guest and all hosts on every schedule without an exception; the model is the sequence of trees that one party holding all columns learns from the bins of the rows' own values, with the labels numbered in increasing order; the scores of training are what the rows' own values get by walking the trees with the split points as thresholds. predict then finishes on every schedule for any tables of rows and returns exactly, for the labelled rows that everybody has or that meet only guest nodes, the class and probability belonging to that walk; a new copy of the training rows gets the scores of training. Defect: fit leaves bin numbers in the row objects, so predicting the same objects after fit reads bins as values and can return other classes (witness: a row that is classified correctly from a copy and wrongly from the same object).", "quantifier": "for all tables of row objects, labels, parameters, numbers of hosts, feature draws, keys and schedules; any prediction data", "why_tests_cant": "Relates raw input to final output over all data, all interleavings and both phases; the defect needs aliased rows.", "anchors": ["ml/tree/hetero_secureboosting_tree_guest.py: fit, predict, set_y, convert_feature_to_bin", "ml/tree/hetero_secureboosting_tree_host.py: fit, predict", "ml/tree/boosting_tree.py: data_alignment", "ml/feature/binning/base_binning.py: convert_feature_to_bin"]}
{"id": "C66", "title": "The example programs: from the CSV files to the printed accuracy", "statement": "For CSV files of equal length at all parties, guest.py and the host programs finish on every schedule; all of them divide the rows in the same way by their position in the file; the model is the one that a single party learns from the training rows put side by side by position; what the guest prints is the correctly rounded share of the test rows for which the walk through the trees over the side by side rows gives the row's own label. If the ratio leaves no row for testing, all programs raise ValueError after training. The ids (and the names of the first columns) influence nothing. Defect: rows are joined by position, so a host file with the same rows in another order changes the result silently (witness: accuracy 1 and 0).", "quantifier": "for all files, ratios, random generators, parameters, numbers of hosts, keys and schedules", "why_tests_cant": "End-to-end claim over all files, generators and interleavings.", "anchors": ["guest.py: test_hetero_secure_boost_guest, data_split", "host.py: test_hetero_secure_boost_host, data_split", "i_o/utils.py: read_from_csv_with_lable, read_from_csv_with_no_lable"]}
{"id": "C67", "title": "The programs over byte streams with buffers of limited size", "statement": "Take the example programs with the bytes they really write and read: a 16 byte header and the pickled object per message, sent by sendall in any pieces, at most so many bytes on the way per connection as the buffers hold (sendall waits when they are full), payloads read in any pieces. If every buffer holds at least 16 bytes, pickle restores the objects that are sent, none is longer than 10^16 bytes, and reads of headers return the whole header, then every schedule ends after finitely many steps with all parties returned, no byte left over, and the accuracy that the claim about files and printed accuracy describes; in particular full buffers never make the parties wait for each other forever. If a read returns only part of a header this fails (witness: one byte of the header of a single message, the receiver raises).", "quantifier": "for all buffer sizes from 16 bytes on, all interleavings and all sizes of partial writes and reads; all files, parameters, keys and numbers of hosts", "why_tests_cant": "Quantifies over buffer sizes, segmentations and interleavings; on one machine's loopback sockets a test sees hardly any of them.", "anchors": ["federation/transfer_inst.py: send_data, recv_data, send_data_to_hosts, recv_data_from_hosts", "guest.py", "host.py"]}
{"id": "C68", "title": "Training in the encryption modes fast and balance: only the gradients of the host features drift", "statement": "In every mode (strict, fast, balance) and for all random draws, training over Paillier finishes on every schedule with the same result. One calculator object serves all trees, so in the modes fast and balance the ciphertexts of a tree may be those of the tree before plus a difference. No row is lost in training (all tables have the same keys). The trees are exactly those of the centralised learner that sees, for the hosts' columns, every row's gradient and Hessian off by at most 2^-47 for each tree since the gradients were last encrypted anew, plus one; node sums, weights and the guest's own columns are computed from the exact gradients. Scores, number of rounds and prediction hold as in mode strict. In mode strict the hosts' values are the correctly rounded encodings and do not depend on earlier trees; in mode fast the number of trees since the last encryption is the number of the tree; in mode balance it is the distance to the last draw below the rate.", "quantifier": "for all data sets, labels, parameters, numbers of hosts, classes and rounds, keys, draws and schedules, within explicit bounds on rows, depth and trees", "why_tests_cant": "The drift accumulates over trees and depends on the draws; tests run a handful of trees in one mode.", "anchors": ["ml/secureprotol/encrypt_mode.py: encrypt, get_differance, add_differance", "ml/tree/hetero_secureboosting_tree_guest.py: generate_encrypter, fit", "ml/tree/hetero_decision_tree_guest.py: encrypt_grad_and_hess, fit"]}
{"id": "C69", "title": "Encryption modes fast and balance let the hosts read gradient differences, and with them the labels (defect)", "statement": "A call of the calculator that does not encrypt anew adds a plaintext difference to the ciphertexts of the call before without new randomness. So from the two tables of encrypted gradients that every host is sent for two consecutive trees, and from public data alone (the modulus and the exponents of the ciphertexts, no key), the change of every row's gradient and Hessian can be computed up to 2^-48. With the softmax loss, if none of the trees 2 to dim of the first round is encrypted anew (always so in mode fast), a host that runs the program as it is and writes down what it receives can compute the label of every row after training: on every schedule, at every host, for every row.", "quantifier": "for all keys, data sets, labels, parameters, numbers of hosts and of classes, schedules and random draws of encryption; equal start probabilities of at least 2^-10", "why_tests_cant": "A negative statement about confidentiality: no output of the program is wrong, so no functional test fails.", "anchors": ["ml/secureprotol/encrypt_mode.py: encrypt, add_differance", "ml/secureprotol/fate_paillier.py: PaillierEncryptedNumber.__add__, __add_scalar, __add_fixpointnumber", "ml/tree/hetero_decision_tree_guest.py: sync_encrypted_grad_and_hess", "ml/tree/hetero_secureboosting_tree_guest.py: fit"]}
{"id": "C70", "title": "The program without a federation: from two CSV files to the printed accuracy; columns of the same name are mixed up (defect)", "statement": "test_xgboost.py puts the rows of the two files side by side by their position (extra rows of the second file are ignored, a second file with fewer rows raises IndexError before anything is trained), divides them like the federated programs, trains the model that one party learns from the bins of its own values, and prints the correctly rounded share of the test rows for which the walk through the trees over the side-by-side values gives the label. This needs distinct column names. Defect: columns of the same name get the same split points whatever is in them, so renaming a column changes the printed accuracy (witness: 1 against 1/2); the names in the project's own data sets repeat.", "quantifier": "for all files, ratios, random generators, parameters, encryption functions and feature draws", "why_tests_cant": "End-to-end claim over all files and generators; the script asserts nothing.", "anchors": ["test_xgboost.py: test, data_split", "xgboost/hetero_secureboosting_tree_guest.py: fit, predict", "ml/feature/binning/base_binning.py: _init_cols, convert_feature_to_bin", "i_o/utils.py"]}
{"id": "C71", "title": "guest.py with a host and test_xgboost.py print the same accuracy on the same two files, except at near ties", "statement": "Run on the same two files of equal length with distinct column names, with the same parameters and all columns used for every tree (subsample_feature_rate 1), the federated guest and the program without a federation divide the rows in the same way whatever the state of their random generators. If at no node of the federated model the host's best gain exceeds the guest's best gain by a positive amount of at most 10^-6, both print the same accuracy: on every schedule of the federation, for every seed. With early stopping this needs a loss that does not depend on the order of the rows. At near ties it fails (witness: two files with nine rows for which the federation prints 1 and the program without a federation 0).", "quantifier": "for all files, ratios, random generators, parameters, encryption functions and schedules; one host", "why_tests_cant": "Relates two programs on all inputs and schedules; neither script asserts anything.", "anchors": ["guest.py: test_hetero_secure_boost_guest", "host.py: test_hetero_secure_boost_host", "test_xgboost.py: test", "ml/tree/hetero_decision_tree_guest.py: find_best_split_guest_and_host, merge_splitinfo", "xgboost/hetero_decision_tree_guest.py: fit"]}
{"id": "C72", "title": "Convergence functions over a sequence of calls: the weight criterion compares an array with itself if the caller updates it in place (defect)", "statement": "Over any sequence of calls on one object, the loss criterion answers yes exactly if there was a call before and the rounded absolute difference of the two losses is below the tolerance. The weight criterion keeps a reference to the array of the call before, so the answer depends on what that array holds at the time of the new call: if callers pass a new array each time the answer is the documented one (norm of the difference below the tolerance times the larger of 1 and the norm of the new weights), but if one array is updated in place every answer from the second on is yes, however far the weights moved.", "quantifier": "for all sequences of calls, contents of arrays between the calls, tolerances, norms and roundings", "why_tests_cant": "Depends on aliasing between the arguments of different calls; a test with fresh arrays passes.", "anchors": ["ml/optim/convergence.py: DiffConverge.is_converge, WeightDiffConverge.is_converge", "ml/utils/fate_operator.py: norm"]}
{"id": "C73", "title": "Vector helpers: the inner product drops small entries, sums cut off or raise at different lengths", "statement": "The inner product of a row and a weight vector treats every entry of the row below 10^-5 in absolute value as 0: rows that differ only in such entries give the same number, with exact additions the error is at most 10^-5 times the sum of the absolute weights, and the product is not homogeneous (scaling a row by 10^-6 turns 1 into 0). It succeeds exactly if every other entry has a weight, extra weights are ignored, otherwise it raises IndexError. A matrix is treated row by row. Adding up partial results skips None and adds item by item in the order of the arguments; a longer second vector is cut off, a shorter one raises IndexError, so the order of the arguments matters.", "quantifier": "for all vectors, matrices, lists of partial results and roundings", "why_tests_cant": "Universal over vectors and lengths, with a bound on an error.", "anchors": ["ml/utils/fate_operator.py: _one_dimension_dot, dot, reduce_add"]}
{"id": "C74", "title": "Histograms in double arithmetic: counts are exact, sums are off by a bounded amount, and a bin can lose its gradient", "statement": "With every addition and subtraction rounded to doubles, gradients between -1 and 1 and Hessians between 0 and 1, every accumulated sum of the guest's histogram over n rows (3n at most 2^51) is within 2^-52 (3n)^2 of the exact sum over the rows of the node up to that bin, and every row count is exact. If all values are integer multiples of a power of two with factors at most M and 3 n M is at most 2^53, as in a first round with two classes, the sums are exact. In general they are not: the bin of rows without a stored value is total minus stored, and a bin with one row of positive gradient can get the gradient 0 (witness).", "quantifier": "for all tables, gradients, split points, masks, node maps and keys", "why_tests_cant": "An error bound over all inputs; tests compare with tolerances on one data set.", "anchors": ["ml/tree/feateur_histogram.py: calculate_histogram, batch_calculate_histogram, accumulate_histogram"]}
{"id": "C75", "title": "Split search in double arithmetic: the split found is within a stated bound of the best one", "statement": "The guest's search with every operation rounded, run on its histogram in doubles, with n rows, lambda at least 2^-44 n^2 and D = 2^-38 n^4 (1/lambda + 1/lambda^2): it never raises; a split it returns is allowed by the row counts, its reported gain is within D of its true gain, computed exactly from the rows, and no allowed split of the node truly gains more than 2D above it; if it returns none, no allowed split truly gains more than min_impurity_split + D. The split need not be the best one (witness: two columns that tie in doubles, the second one truly gains more).", "quantifier": "for all tables, gradients, split points, masks, nodes and parameters within the stated ranges", "why_tests_cant": "Near-optimality up to rounding is universal over inputs; a test sees one choice and cannot tell a rounding effect from a bug.", "anchors": ["ml/tree/splitter.py: find_split_single_histogram_guest", "ml/tree/creterion.py: split_gain, node_gain", "ml/tree/feateur_histogram.py"]}
{"id": "C76", "title": "A tree grown in double arithmetic without a federation is a greedy tree up to stated errors; it is the exact tree if no choice is close", "statement": "With every sum, difference, quotient and comparison rounded to doubles, n rows, gradients between -1 and 1 and Hessians between 0 and 1, d levels of splits, m = n (d + 1) at most 2^47 and lambda at least 2^-44 m^2: growing a tree never raises. Every node stands for a set of rows, all rows at the root, shared out by the bins of the split below; its stored sums are within 2^-52 (3m)^2 of those over its rows and its weight within W = 2^-45 m^3 (1/lambda + 1/lambda^2) of the optimal one. With D = 2^-38 n^4 (1/lambda + 1/lambda^2) every split is allowed by the row counts, truly gains more than the least gain less D and at most 2D less than the best allowed one; a leaf above the bottom level has no allowed split that gains more than the least gain plus 3D. Every row gets the weight of the leaf that has it. If every choice of the tree learnt with exact arithmetic is clear by 2D (and by 3D against the least gain), the stored tree has the same splits and every row gets its exact weight up to W. Otherwise one rounding error can turn a row's weight from below -1/2 to above 1/2 (witness: three rows).", "quantifier": "for all tables, gradients, split points, masks, depths, batch sizes and parameters within the stated ranges", "why_tests_cant": "Errors accumulate over levels and choose between subtrees; a test on one data set cannot bound them, nor tell a near tie from a bug.", "anchors": ["xgboost/hetero_decision_tree_guest.py: fit, update_tree_node_queue, find_best_split_guest, get_grad_hess_sum, update_instances_node_positions", "ml/tree/creterion.py: node_weight, split_gain", "ml/tree/splitter.py: find_split_single_histogram_guest", "ml/tree/feateur_histogram.py"]}
{"id": "C77", "title": "Processes that end or die: closing connections harms nobody in a normal run, and a death ends the others or leaves them reading empty strings (defect)", "statement": "Connections are closed when a program returns, raises or is killed. In the runs of the claim about byte streams in which nobody is killed, no party ends while a partner still reads from it or writes to it, so every schedule still ends with all parties returned and the same accuracy, and no read is ever empty. If any number of parties are killed at any moments, every schedule is finite apart from empty reads, the guest never returns a different accuracy, and when nobody can move any more either the guest is in the payload loop of a dead connection, or the guest has ended and every host has ended or is in such a loop: no two live parties wait for each other. A party that waits for the next message of a dead partner raises ValueError. Defect: a partner that dies inside a message makes the reader repeat empty reads for ever, and if that reader is the guest all other hosts wait for ever (witness: two hosts, one dies after one byte of a message).", "quantifier": "for all files, parameters, keys, numbers of hosts, buffer sizes from 16 bytes on, interleavings, sizes of partial writes and reads, and all sets and moments of deaths", "why_tests_cant": "Quantifies over the moment of a death between any two bytes and over all schedules.", "anchors": ["federation/transfer_inst.py: send_data, recv_data", "guest.py", "host.py", "ml/tree/hetero_secureboosting_tree_guest.py: fit, predict", "ml/tree/hetero_secureboosting_tree_host.py: fit, predict"]}
{"id": "C78", "title": "Array functions of the encryption classes: decryption keeps positions but not the shape of vectors, encryption always fails with Paillier (defect)", "statement": "Decrypting an array of encrypted numbers of any dimension gives, at every position, the decrypted value as a double, in an array of the same shape, except that a vector of n entries comes back as a matrix with one row and that dimensions after a dimension of size 0 are lost; the values of a table come back as one row in the order of the table. Defects: encrypting any array with at least one entry raises TypeError for every Paillier key, because the encrypted numbers are converted to doubles; encrypting a table raises TypeError with every scheme, even with one that changes nothing.", "quantifier": "for all shapes, entries, keys and tables", "why_tests_cant": "Universal over shapes of any dimension and over keys.", "anchors": ["ml/secureprotol/encrypt.py: Encrypt.encrypt_list, decrypt_list, recursive_encrypt, recursive_decrypt"]}
{"id": "C79", "title": "Rule files for parameters: rules under a class name are ignored unless the attribute is also a key of its own, and one rule of several is enough (defect)", "statement": "If every rule fits the attribute of its name (numeric limits and ranges for numbers, lists for the list rules), validating a parameter object against a rule file returns normally exactly if every attribute of the object whose own name is a key at the top of the file has, in the section of its class, at least one rule that it meets, and the same holds for the parameter objects among its attributes whose names are keys of the file; without a readable file everything passes. Limits and ranges have a tolerance of 10^-6. Whatever returns normally satisfies this even without the assumption. Rejection is a ValueError, or a KeyError if a section or rules are missing; with rules for every key it is always a ValueError. Defects: a file that has only class sections rejects nothing, whatever its rules; an attribute with a lower and an upper limit passes if it satisfies one of them, so 1000 trees pass under a limit of 100.", "quantifier": "for all rule files, parameter objects nested to any depth, and values", "why_tests_cant": "Universal over rule files and nested objects; the repository ships no rule file, so no test runs this code.", "anchors": ["ml/param/base_param.py: BaseParam.validate, _validate_param, _greater_equal_than, _less_equal_than, _in, _not_in, _range"]}
{"id": "C80", "title": "Generation of Paillier keys: keys have exactly the demanded length and are built from two different primes; odd lengths hardly ever end (defect)", "statement": "For a length from 2 on, any sequence of random numbers and a next-prime function that is right on the numbers it is asked for: generating a key never raises; it returns the key of the first attempt whose product has exactly the demanded number of bits, where an attempt is a prime and the first different prime drawn after it, and goes on drawing as long as there is none. A returned key is the product of two different primes, both above 2^(L/2-1), has exactly L bits, its private key is one for which the other claims about encryption hold, and, from 6 bits on, every integer up to 2^(L-3) in absolute value decrypts to itself if it is encrypted with an obfuscation value prime to the modulus. Defects: for an odd length 2k+1 it returns only if some draw, with its top bit set, lies above the last prime below 2^k, so that for usual lengths it practically never ends; for lengths 2, 3 and 5 it never ends.", "quantifier": "for all lengths from 2 on and all sequences of random numbers", "why_tests_cant": "Keys are random: a test sees a few, and cannot show that no sequence of draws ends a loop.", "anchors": ["ml/secureprotol/fate_paillier.py: PaillierKeypair.generate_keypair, PaillierPrivateKey.__init__", "ml/secureprotol/gmpy_math.py: getprimeover"]}
{"id": "C81", "title": "The affine cipher hides little: equal numbers are seen, the modulus leaks, and two known numbers reveal all others (defect)", "statement": "For every key of the affine cipher: two integers have the same ciphertext exactly if the modulus divides their difference times the encoding factor, so repeated values are visible; for integers with i - j = u - v the modulus divides (c_i - c_j) - (c_u - c_v), so known numbers give multiples of the secret modulus. Secrecy against somebody who knows the modulus and two plaintexts fails: one fixed function, which has no part of the key but the modulus, computes every other integer below the modulus from its ciphertext, provided the difference of the two, times the encoding factor, is prime to the modulus. If key generation draws a multiplier of one bit, the multiplier is 1 and differences of ciphertexts are differences of encoded plaintexts modulo n.", "quantifier": "for all keys, encoding factors and integers", "why_tests_cant": "That no key protects against a given attack is universal over keys; tests check that decryption inverts encryption.", "anchors": ["ml/secureprotol/affine.py: AffineCipherKey.encrypt, raw_encrypt, AffineCipher.generate_keypair", "ml/secureprotol/affine_encoder.py", "ml/secureprotol/encrypt.py: AffineEncrypt"]}
{"id": "C82", "title": "Merging the histograms of partitions gives the histogram of all rows, in plain numbers and encrypted; with different masks it loses a feature or raises (defect)", "statement": "However the rows of a table are divided into one or more partitions, empty ones included, and in whatever order: computing the histogram of every partition and merging them one after the other raises no exception and gives exactly the histogram of all rows, in exact arithmetic. If gradients and Hessians are encrypted with Paillier, every cell of the merged histogram decrypts to the double nearest to the cell of the histogram of all encoded rows, with the same row count; a cell that no row reached may be the plain number 0. Defect: merging assumes that both histograms were made with the same feature mask: otherwise it raises IndexError, or, in the other order of arguments, silently drops the feature.", "quantifier": "for all tables, divisions into partitions, orders, split points, masks, nodes, keys and random values within the stated ranges", "why_tests_cant": "Universal over divisions of the rows; the repository's own table has one partition, so running it never reaches the merge.", "anchors": ["ml/tree/feateur_histogram.py: aggregate_histogram, calculate_histogram, batch_calculate_histogram", "computing/d_table.py: reduce"]}
{"id": "C83", "title": "Quantile summaries of partitions: merging keeps all columns and counts all values; a small error makes the division irrelevant, a larger one does not (defect)", "statement": "However a table is divided into one or more partitions, empty ones included, of any sizes and with any buffer size: fitting split points raises no exception. For dense rows the merged summary of every column counts all values of all partitions that are not in the abnormal list; every column gets at most bin_num - 1 different split points, each a value of that column (0 if all values are abnormal). For sparse rows without abnormal values the merged summary, with the total count set afterwards, answers every legal query with 0 exactly within the zero band of the whole table and with a stored value of that column otherwise; the split points are such answers for the rates k / bin_num, one for every rate and no others. For dense rows: if 4 times the error times the number of rows is at most 1 and the rows fit into the buffer, the split points are exactly those of the undivided table. That this holds for every legal error is refuted: with error 1/4, twelve rows in two partitions give other split points than in one. Merging two dictionaries with different columns raises AttributeError or silently drops a column, depending on the order.", "quantifier": "for all tables, headers, divisions into partitions, errors, buffer sizes and bin numbers", "why_tests_cant": "Universal over divisions of the rows; the repository's own table has one partition, so running it never reaches the merge.", "anchors": ["ml/feature/binning/quantile_binning.py: merge_summary_dict, fit_split_points, approxiQuantile", "ml/feature/quantile_summaries.py: QuantileSummaries.merge, SparseQuantileSummaries.merge, query", "computing/d_table.py: reduce"]}
{"id": "C84", "title": "Choosing columns by index: names decide, negative numbers count from the end, and equal names give another column (defect)", "statement": "Given a list of indices for a table of n columns, binning and statistics accept it exactly if int() turns every index into a number from -n to n - 1. They then work on exactly the columns that the indices name, negative ones counted from the end, each once however often it is listed; with different column names every index stands for its own column, and listing all indices is the same as asking for all columns with -1. Otherwise the first index out of reach decides: ValueError for n or more and for a text that is no number, IndexError below -n, and for a value that is no number at all ValueError in binning but TypeError in statistics. Defects: a negative index in a list is not rejected but silently chooses a column from the end; if two columns have the same name, choosing the later one works on the earlier one.", "quantifier": "for all headers and lists of indices", "why_tests_cant": "Universal over headers, including those with equal names, and over lists of indices; the repository itself always asks for all columns.", "anchors": ["ml/feature/binning/base_binning.py: Binning._init_cols", "ml/statistic/statics.py: MultivariateStatisticalSummary._init_cols"]}
