(** Property theorems C05-C08: transport. *)
From Verif Require Import PyBase TransferModel TransferSpec TransferProofs.
From Coq Require Import ZArith.
Open Scope Z_scope.

(** C05 *)
Theorem C05_payload_fragmentation :
  forall (fuel : nat) (avail : transport) (ms : list bytes) (s : sock) (rest : bytes),
    sk_in s = concat (map frame ms) ++ rest ->
    Forall (fun m => Z.of_nat (length m) < 10 ^ 16) ms ->
    Forall (fun p => (16 <= avail p)%nat) (starts (sk_pos s) ms) ->
    Forall (fun m => (length m <= fuel)%nat) ms ->
    exists s', recv_many fuel avail (length ms) s = Ok (ms, s') /\ sk_in s' = rest.
Proof. exact recv_many_frames. Qed.
Print Assumptions C05_payload_fragmentation.

Example C05_ex_ms : list bytes := [[128; 1; 2; 3; 4]; []; [128; 9; 32; 7; 5; 5; 5; 5; 5; 5; 5; 5]].
(** one byte at a time inside payloads, whole headers *)
Example C05_ex_avail : transport :=
  fun p => if decide (p ∈ starts 0 C05_ex_ms) then 16%nat else 1%nat.
Example C05_ex_hyp : Forall (fun p => (16 <= C05_ex_avail p)%nat) (starts 0 C05_ex_ms).
Proof. vm_compute. repeat constructor. Qed.
Example C05_ex_run :
  match recv_many 20 C05_ex_avail 3 (Sock 0 (concat (map frame C05_ex_ms) ++ [77])) with
  | Ok (ms, s) => bool_decide (ms = C05_ex_ms) && bool_decide (sk_in s = [77])
  | Err _ => false
  end = true.
Proof. vm_compute. reflexivity. Qed.
Example C05_ex_frame : frame [128; 1; 2] = [51; 32; 32; 32; 32; 32; 32; 32; 32; 32; 32; 32; 32; 32; 32; 32; 128; 1; 2].
Proof. reflexivity. Qed.

(** C06 *)
Theorem C06_short_header_never_right :
  forall (fuel : nat) (avail : transport) (s : sock) (m rest m' : bytes) (s' : sock),
    sk_in s = frame m ++ rest -> Z.of_nat (length m) < 10 ^ 16 -> starts_nonblank m ->
    (1 <= avail (sk_pos s) <= 15)%nat ->
    recv_data fuel avail s = Ok (m', s') -> m' ≠ m.
Proof. exact short_header_wrong. Qed.
Print Assumptions C06_short_header_never_right.

(** The full-strength C05 without the header hypothesis is false of the code. *)
Theorem C06_any_fragmentation_refuted :
  exists (avail : transport) (m : bytes) (s : sock),
    sk_in s = frame m /\ (forall p, (1 <= avail p)%nat) /\
    exists m' s', recv_data 100 avail s = Ok (m', s') /\ m' ≠ m.
Proof.
  exists (fun _ => 1%nat), (128 :: replicate 11 5), (Sock 0 (frame (128 :: replicate 11 5))).
  split; [done|]. split; [done|]. eexists [50], _. split; [vm_compute; reflexivity|done].
Qed.
Print Assumptions C06_any_fragmentation_refuted.

Theorem C06_desynchronised_stream_raises_refuted :
  exists (avail : transport) (m1 m2 : bytes) (s : sock),
    sk_in s = frame m1 ++ frame m2 /\ (forall p, (1 <= avail p)%nat) /\
    recv_many 100 avail 2 s = Err ValueError.
Proof.
  exists (fun p => if decide (p = 0%nat) then 2%nat else 16%nat), (128 :: replicate 11 5), [128; 46],
    (Sock 0 (frame (128 :: replicate 11 5) ++ frame [128; 46])).
  split; [done|]. split; [intros p; case_decide; lia|]. vm_compute. reflexivity.
Qed.
Print Assumptions C06_desynchronised_stream_raises_refuted.

(** What else the header field may hold: a minus sign and digits count as an empty message, whatever the number; a field that
    starts with an underscore raises, although Python allows underscores between digits. *)
Lemma dval_nonneg l acc : Forall (fun b => 48 <= b <= 57) l -> 0 <= acc -> 0 <= dval acc l.
Proof. intros F. revert acc. induction F as [|b l Hb _ IH]; intros acc A; [exact A|]. cbn. apply IH. lia. Qed.
Lemma strip_minus l k : Forall (fun b => 48 <= b <= 57) l -> l ≠ [] -> strip ((45 :: l) ++ replicate k 32) = 45 :: l.
Proof.
  intros F NE. unfold strip. change (lstrip ((45 :: l) ++ replicate k 32)) with ((45 :: l) ++ replicate k 32).
  rewrite reverse_app, reverse_replicate, lstrip_replicate. rewrite lstrip_digit; [apply reverse_involutive|].
  destruct l as [|d l] using rev_ind; [done|]. apply Forall_app in F as [_ F]. apply Forall_cons in F as [Hd _].
  exists d, (reverse l ++ [45]). split; [|unfold is_digit; lia]. rewrite reverse_cons, reverse_snoc. done.
Qed.
Theorem C06_negative_length :
  forall (fuel : nat) (avail : transport) (s : sock) (l rest : bytes) (k : nat),
    sk_in s = (45 :: l) ++ replicate k 32 ++ rest -> Forall (fun b => 48 <= b <= 57) l -> l ≠ [] ->
    (1 + length l + k = 16)%nat -> (16 <= avail (sk_pos s))%nat ->
    recv_data fuel avail s = Ok ([], Sock (sk_pos s + 16) rest).
Proof.
  intros fuel avail s l rest k E F NE L A. unfold recv_data, recv. rewrite Nat.min_l by lia. rewrite E, app_assoc.
  assert (LN : length ((45 :: l) ++ replicate k 32) = 16%nat) by (rewrite app_length, replicate_length; cbn; lia).
  rewrite (take_app_alt _ _ 16) by done. rewrite (drop_app_alt _ _ 16) by done. rewrite take_ge by lia. rewrite LN.
  unfold parse_int. rewrite strip_minus by done. rewrite parse_digits_ok; [|apply Forall_impl with (1 := F); unfold is_digit; intros; lia|by left].
  cbn [option_map]. pose proof (dval_nonneg l 0 F ltac:(lia)) as D. assert (X : (Z.of_nat (length (@nil Z)) <? - dval 0 l) = false) by (cbn; lia).
  destruct fuel; cbn [recv_loop]; rewrite X; reflexivity.
Qed.
Print Assumptions C06_negative_length.
Theorem C06_leading_underscore :
  forall (fuel : nat) (avail : transport) (s : sock) (l : bytes),
    sk_in s = 95 :: l -> recv_data fuel avail s = Err ValueError.
Proof.
  intros fuel avail s l E. unfold recv_data, recv. rewrite E. destruct (Nat.min 16 (Nat.max 1 (avail (sk_pos s)))) as [|j] eqn:J; [lia|]. cbn [take].
  assert (LS : forall m, exists m', lstrip (m ++ [95]) = m' ++ [95]).
  { induction m as [|b m [m' IH]]; [by exists []|]. cbn [app lstrip]. destruct (is_ws b); [eauto|by exists (b :: m)]. }
  unfold parse_int, strip. change (lstrip (95 :: take 15 (take j l))) with (95 :: take 15 (take j l)). rewrite reverse_cons.
  destruct (LS (reverse (take 15 (take j l)))) as [m' ->]. rewrite reverse_snoc. done.
Qed.
Print Assumptions C06_leading_underscore.
Example C06_text_ex : recv_data 0 (fun _ => 16%nat) (Sock 0 ([45; 50; 48] ++ replicate 13 32 ++ [7])) = Ok ([], Sock 16 [7])
  /\ recv_data 9 (fun _ => 16%nat) (Sock 0 (95 :: 50 :: replicate 14 32)) = Err ValueError.
Proof. split; vm_compute; reflexivity. Qed.

(** C07 *)
Theorem C07_closed_mid_message_never_returns :
  forall (fuel : nat) (avail : transport) (s : sock) (m : bytes) (j : nat),
    sk_in s = take j (frame m) -> (0 < length m)%nat -> Z.of_nat (length m) < 10 ^ 16 ->
    (1 <= j < 16 + length m)%nat -> (16 <= avail (sk_pos s))%nat ->
    recv_data fuel avail s = Err OutOfFuel.
Proof. exact closed_early_spins. Qed.
Print Assumptions C07_closed_mid_message_never_returns.

Theorem C07_closed_between_messages_raises :
  forall (fuel : nat) (avail : transport) (s : sock),
    sk_in s = [] -> recv_data fuel avail s = Err ValueError.
Proof. exact closed_at_boundary. Qed.
Print Assumptions C07_closed_between_messages_raises.

Example C07_ex : recv_data 500 (fun _ => 16%nat) (Sock 0 (take 18 (frame [128; 1; 2; 3]))) = Err OutOfFuel
  /\ (match recv_data 500 (fun _ => 16%nat) (Sock 0 (frame [128; 1; 2; 3])) with Ok (m, _) => m | _ => [] end)
     = [128; 1; 2; 3].
Proof. split; vm_compute; reflexivity. Qed.

(** C08 *)
Theorem C08_send_to_all :
  forall m outs, send_data_to_hosts m (-1) outs = Ok (map (fun o => o ++ frame m) outs).
Proof. exact send_all_spec. Qed.
Print Assumptions C08_send_to_all.

Theorem C08_send_to_one :
  forall m (i : nat) outs,
    (i < length outs)%nat ->
    exists outs', send_data_to_hosts m (Z.of_nat i) outs = Ok outs'
    /\ (exists o, outs !! i = Some o /\ outs' !! i = Some (o ++ frame m))
    /\ (forall j, j ≠ i -> outs' !! j = outs !! j) /\ length outs' = length outs.
Proof. exact send_one_spec. Qed.
Print Assumptions C08_send_to_one.

Theorem C08_send_bad_index :
  forall m index outs,
    index ≠ -1 -> (index < 0 \/ Z.of_nat (length outs) <= index) ->
    send_data_to_hosts m index outs = Err ValueError.
Proof. exact send_bad_spec. Qed.
Print Assumptions C08_send_bad_index.

Theorem C08_recv_from_all :
  forall fuel (conns : list (transport * sock)) (ms rests : list bytes),
    length ms = length conns -> length rests = length conns ->
    (forall i av s m r, conns !! i = Some (av, s) -> ms !! i = Some m -> rests !! i = Some r ->
       sk_in s = frame m ++ r /\ Z.of_nat (length m) < 10 ^ 16
       /\ (16 <= av (sk_pos s))%nat /\ (length m <= fuel)%nat) ->
    exists cs, recv_data_from_hosts fuel (-1) conns = Ok (Many ms, cs) /\ map (fun c => sk_in c.2) cs = rests.
Proof. exact recv_all_spec. Qed.
Print Assumptions C08_recv_from_all.

Theorem C08_recv_from_one :
  forall fuel (conns : list (transport * sock)) (i : nat) (av : transport) s m r,
    conns !! i = Some (av, s) -> sk_in s = frame m ++ r -> Z.of_nat (length m) < 10 ^ 16 ->
    (16 <= av (sk_pos s))%nat -> (length m <= fuel)%nat ->
    exists s', recv_data_from_hosts fuel (Z.of_nat i) conns = Ok (One m, <[i := (av, s')]> conns) /\ sk_in s' = r.
Proof. exact recv_one_spec. Qed.
Print Assumptions C08_recv_from_one.

Theorem C08_recv_bad_index :
  forall fuel index conns,
    index ≠ -1 -> (index < 0 \/ Z.of_nat (length conns) <= index) ->
    recv_data_from_hosts fuel index conns = Err ValueError.
Proof. exact recv_bad_spec. Qed.
Print Assumptions C08_recv_bad_index.

Example C08_ex : send_data_to_hosts [128; 7] 1 [[1]; [2]; [3]] = Ok [[1]; [2] ++ frame [128; 7]; [3]]
  /\ send_data_to_hosts [128; 7] (-2) [[1]; [2]; [3]] = Err ValueError
  /\ send_data_to_hosts [128; 7] 3 [[1]; [2]; [3]] = Err ValueError.
Proof. vm_compute. auto. Qed.
Example C08_ex_recv :
  match recv_data_from_hosts 50 (-1) [((fun _ => 16%nat), Sock 0 (frame [128; 1])); ((fun _ => 20%nat), Sock 3 (frame [128; 2; 2] ++ [9]))] with
  | Ok (Many ms, _) => bool_decide (ms = [[128; 1]; [128; 2; 2]])
  | _ => false end = true.
Proof. vm_compute. reflexivity. Qed.
