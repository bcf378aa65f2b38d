(** C38-C40, C47: training one tree. Each claim is stated for plain numbers in place of ciphertexts and for Paillier. *)
From Verif Require Import TreeMain.
Local Open Scope nat_scope.

(** What Paillier needs: a key of at least 1000 bits, invertible nonces, gradients of size at most 1, hessians between 0 and
    1, and few enough rows for the precision of a gain. [d] is the number of levels of splits. *)
Record paillier_ok {K} (U : list K) (sk : privkey) (rg rh : K -> Z) (rr : nat -> nat -> Z) (lam mi : Qc) (vg vh : K -> Qc) (d : nat) : Prop := {
  pk_key : keypair (sk_n sk) sk;
  pk_big : (2 ^ 1000 <= sk_n sk)%Z;
  pk_rg : forall k, Z.gcd (rg k) (sk_n sk) = 1%Z;
  pk_rh : forall k, Z.gcd (rh k) (sk_n sk) = 1%Z;
  pk_rr : forall i nid, Z.gcd (rr i nid) (sk_n sk) = 1%Z;
  pk_lam : (0 < lam)%Qc;
  pk_v : forall k, k ∈ U -> (qabs (vg k) <= 1)%Qc /\ (0 <= vh k)%Qc /\ (vh k <= 1)%Qc;
  pk_rows : (zq 16 * (zq (Z.of_nat (length U)) * zq (Z.of_nat (length U))) <= lam * zq (2 ^ 29))%Qc;
  pk_levels : (zq (Z.of_nat d + 1) * zq (Z.of_nat (length U)) <= lam * zq (2 ^ 47))%Qc;
  pk_depth : (Z.of_nat d + 1 <= 2 ^ 48)%Z;
  pk_mi : (qabs (mi - FLOAT_ZERO) <= zq (2 ^ 29))%Qc }.

Section Tree.
  Context {K : Type} `{EqDecision K} (U : list K) (nh : nat) (gcfg : pcfg K) (hcfg : nat -> pcfg K) (guest : party K) (hosts : list (party K)) (sname : nat -> site).
  Context (gh : dtable K (Qc * Qc)) (vg vh : K -> Qc) (it : imp_type) (d : nat).
  Local Notation lam := (reg_lambda (c_par gcfg)).
  Local Notation mi := (min_impurity (c_par gcfg)).
  Local Notation plain := (plain_sys nh gcfg hcfg sname it gh).
  Local Notation owns st hs := (site_party nh sname gcfg hcfg (t_mask st) (hmask hs)).

  (** C47. Whatever the interleaving of the parties' sends and receives, training ends, with every party returned and no
      message left over, in one and the same final state. *)
  Theorem C47_plain : parties_ok U nh gcfg hcfg guest hosts sname gh vg vh -> it <> IOther -> c_depth gcfg = S d -> (0 < lam)%Qc ->
    (forall k, k ∈ U -> (0 <= vh k)%Qc) ->
    exists st hs N, length hs = nh /\ forall m s, nsteps step m plain s -> m <= N /\ nsteps step (N - m) s (done st hs).
  Proof.
    intros PA Hit ED L V2. destruct (plain_main U nh gcfg hcfg guest hosts sname gh vg vh PA it Hit d ED L V2) as (t & st & hs & _ & (N & A) & (hm & -> & _)).
    do 3 eexists. split; [|exact A]. now rewrite map_length, seq_length.
  Qed.

  (** C38. In the tree that training ends with, entry k has id k, every entry but the root is the child of exactly one entry,
      an earlier one; weights are -G/(H+lambda); the sums of two children add up to their parent's; no path has more than
      max_depth-1 splits and there are at most 2^max_depth-1 entries. All hosts hold the same tree. *)
  Theorem C38_plain m st hs : parties_ok U nh gcfg hcfg guest hosts sname gh vg vh -> it <> IOther -> c_depth gcfg = S d -> (0 < lam)%Qc ->
    (forall k, k ∈ U -> (0 <= vh k)%Qc) -> nsteps step m plain (done st hs) ->
    well_formed lam (t_nodes st) /\ 1 <= length (t_nodes st) <= 2 ^ c_depth gcfg - 1 /\ (forall p, chain (t_nodes st) 0 p -> length p <= c_depth gcfg - 1) /\
    (forall i r, hs !! i = Some r -> r.1 = t_nodes st).
  Proof.
    intros PA Hit ED L V2 RUN. destruct (plain_main U nh gcfg hcfg guest hosts sname gh vg vh PA it Hit d ED L V2) as (t & st' & hs' & Et & A & LT).
    destruct (always_done _ _ _ _ _ _ A RUN) as [-> ->]. destruct (grow_consistent _ _ _ _ _ _ _ _ _ _ _ _ _ _ _ _ Et) as [CO DE].
    destruct (learnt_wf U nh gcfg hcfg guest hosts sname it t st' hs' d LT CO DE) as (W & SZ & P). rewrite ED. replace (S d) with (d + 1) by lia.
    split; [exact W|]. split; [exact SZ|]. split; [intros p Hp; specialize (P p Hp); lia|]. intros i r. apply (learnt_trees _ _ _ _ _ _ _ _ t _ _ _ _ LT).
  Qed.

  (** C39. The weights that fit records have exactly the training rows as keys, one weight per row, that of a leaf which the row
      reaches from the root by the bin comparisons of the owning parties. *)
  Theorem C39_plain m st hs : parties_ok U nh gcfg hcfg guest hosts sname gh vg vh -> it <> IOther -> c_depth gcfg = S d -> (0 < lam)%Qc ->
    (forall k, k ∈ U -> (0 <= vh k)%Qc) -> nsteps step m plain (done st hs) ->
    exists w, t_weights st = Some w /\ NoDup (dt_keys w) /\ (forall k, k ∈ dt_keys w <-> k ∈ U) /\
      forall k v, (k, v) ∈ dt_data w -> reaches (owns st hs) (t_nodes st) k 0 v.
  Proof.
    intros PA Hit ED L V2 RUN. destruct (plain_main U nh gcfg hcfg guest hosts sname gh vg vh PA it Hit d ED L V2) as (t & st' & hs' & Et & A & LT).
    destruct (always_done _ _ _ _ _ _ A RUN) as [-> ->]. exact (learnt_weights U nh gcfg hcfg guest hosts sname gh vg vh PA it t st' hs' LT).
  Qed.

  (** C40. The tree is the one that the centralised greedy learner grows on the joined data: same shape, owners, features,
      thresholds, sums and weights. Every split of it is the best of all parties' allowed splits up to FLOAT_ZERO. *)
  Theorem C40_plain m st hs : parties_ok U nh gcfg hcfg guest hosts sname gh vg vh -> it <> IOther -> c_depth gcfg = S d -> (0 < lam)%Qc ->
    (forall k, k ∈ U -> (0 <= vh k)%Qc) -> nsteps step m plain (done st hs) ->
    exists t, learn U lam mi guest hosts vg vh vg vh (fun x => x) Ok d = Ok t /\ repr (own_site sname) (t_nodes st) (Mr nh gcfg hcfg (t_mask st) (hmask hs)) 0 t /\
      length (t_nodes st) = tsize t /\ greedy U lam mi guest hosts vg vh d t (fun _ => true).
  Proof.
    intros PA Hit ED L V2 RUN. destruct (plain_main U nh gcfg hcfg guest hosts sname gh vg vh PA it Hit d ED L V2) as (t & st' & hs' & Et & A & LT).
    destruct (always_done _ _ _ _ _ _ A RUN) as [-> ->]. exists t. split; [exact Et|]. split; [exact (learnt_repr U nh gcfg hcfg guest hosts sname it t st' hs' LT)|].
    split; [|exact (grow_greedy U lam mi guest hosts vg vh d _ t Et)]. destruct LT as (hm & _ & FP). exact (f_size _ _ _ _ _ _ _ _ _ _ _ FP).
  Qed.

  (** ** With Paillier *)
  Context (sk : privkey) (rg rh : K -> Z) (rr : nat -> nat -> Z).
  Local Notation enc := (paillier_sys sk rg rh rr nh gcfg hcfg sname it gh).
  Local Notation pmain PA Hit ED PK := (paillier_main U nh gcfg hcfg guest hosts sname gh vg vh PA it Hit sk (proj1 (keypair_good _ _ (pk_key _ _ _ _ _ _ _ _ _ _ PK))) (pk_big _ _ _ _ _ _ _ _ _ _ PK) rg rh rr d ED
    (pk_lam _ _ _ _ _ _ _ _ _ _ PK) (pk_rg _ _ _ _ _ _ _ _ _ _ PK) (pk_rh _ _ _ _ _ _ _ _ _ _ PK) (pk_rr _ _ _ _ _ _ _ _ _ _ PK) (pk_v _ _ _ _ _ _ _ _ _ _ PK)
    (pk_rows _ _ _ _ _ _ _ _ _ _ PK) (pk_levels _ _ _ _ _ _ _ _ _ _ PK) (pk_depth _ _ _ _ _ _ _ _ _ _ PK) (pk_mi _ _ _ _ _ _ _ _ _ _ PK)).

  Theorem C47_paillier : parties_ok U nh gcfg hcfg guest hosts sname gh vg vh -> it <> IOther -> c_depth gcfg = S d -> paillier_ok U sk rg rh rr lam mi vg vh d ->
    exists st hs N, length hs = nh /\ forall m s, nsteps step m enc s -> m <= N /\ nsteps step (N - m) s (done st hs).
  Proof.
    intros PA Hit ED PK. destruct (pmain PA Hit ED PK) as (t & st & hs & _ & _ & (N & A) & (hm & -> & _)).
    do 3 eexists. split; [|exact A]. now rewrite map_length, seq_length.
  Qed.

  Theorem C38_paillier m st hs : parties_ok U nh gcfg hcfg guest hosts sname gh vg vh -> it <> IOther -> c_depth gcfg = S d -> paillier_ok U sk rg rh rr lam mi vg vh d ->
    nsteps step m enc (done st hs) ->
    well_formed lam (t_nodes st) /\ 1 <= length (t_nodes st) <= 2 ^ c_depth gcfg - 1 /\ (forall p, chain (t_nodes st) 0 p -> length p <= c_depth gcfg - 1) /\
    (forall i r, hs !! i = Some r -> r.1 = t_nodes st).
  Proof.
    intros PA Hit ED PK RUN. destruct (pmain PA Hit ED PK) as (t & st' & hs' & Et & _ & A & LT).
    destruct (always_done _ _ _ _ _ _ A RUN) as [-> ->]. destruct (grow_consistent _ _ _ _ _ _ _ _ _ _ _ _ _ _ _ _ Et) as [CO DE].
    destruct (learnt_wf U nh gcfg hcfg guest hosts sname it t st' hs' d LT CO DE) as (W & SZ & P). rewrite ED. replace (S d) with (d + 1) by lia.
    split; [exact W|]. split; [exact SZ|]. split; [intros p Hp; specialize (P p Hp); lia|]. intros i r. apply (learnt_trees _ _ _ _ _ _ _ _ t _ _ _ _ LT).
  Qed.

  Theorem C39_paillier m st hs : parties_ok U nh gcfg hcfg guest hosts sname gh vg vh -> it <> IOther -> c_depth gcfg = S d -> paillier_ok U sk rg rh rr lam mi vg vh d ->
    nsteps step m enc (done st hs) ->
    exists w, t_weights st = Some w /\ NoDup (dt_keys w) /\ (forall k, k ∈ dt_keys w <-> k ∈ U) /\
      forall k v, (k, v) ∈ dt_data w -> reaches (owns st hs) (t_nodes st) k 0 v.
  Proof.
    intros PA Hit ED PK RUN. destruct (pmain PA Hit ED PK) as (t & st' & hs' & Et & _ & A & LT).
    destruct (always_done _ _ _ _ _ _ A RUN) as [-> ->]. exact (learnt_weights U nh gcfg hcfg guest hosts sname gh vg vh PA it t st' hs' LT).
  Qed.

  (** The sums of the hosts are those of the encoded gradients, rounded once when decrypted. They stay within
      max_depth * rows * 2^-48 of the true sums. *)
  Theorem C40_paillier m st hs : parties_ok U nh gcfg hcfg guest hosts sname gh vg vh -> it <> IOther -> c_depth gcfg = S d -> paillier_ok U sk rg rh rr lam mi vg vh d ->
    nsteps step m enc (done st hs) ->
    exists t, learn U lam mi guest hosts vg vh (fun k => leaf_value (sk_n sk) (vg k)) (fun k => leaf_value (sk_n sk) (vh k)) fround (prt (sk_n sk)) d = Ok t /\
      repr (own_site sname) (t_nodes st) (Mr nh gcfg hcfg (t_mask st) (hmask hs)) 0 t /\ length (t_nodes st) = tsize t /\
      near U guest hosts vg vh (zq (Z.of_nat (c_depth gcfg)) * zq (Z.of_nat (length U)) * p2 (-48))%Qc t (fun _ => true).
  Proof.
    intros PA Hit ED PK RUN. destruct (pmain PA Hit ED PK) as (t & st' & hs' & Et & NR & A & LT).
    destruct (always_done _ _ _ _ _ _ A RUN) as [-> ->]. exists t. split; [exact Et|]. split; [exact (learnt_repr U nh gcfg hcfg guest hosts sname it t st' hs' LT)|].
    split; [destruct LT as (hm & _ & FP); exact (f_size _ _ _ _ _ _ _ _ _ _ _ FP)|]. rewrite ED, Nat2Z.inj_succ, <- Z.add_1_r. exact NR.
  Qed.
End Tree.
Print Assumptions C38_plain.
Print Assumptions C39_plain.
Print Assumptions C40_plain.
Print Assumptions C47_plain.
Print Assumptions C38_paillier.
Print Assumptions C39_paillier.
Print Assumptions C40_paillier.
Print Assumptions C47_paillier.

(** ** An example: four rows, a guest and a host with one feature each, three levels, nodes in batches of one *)
Definition ex_data (bins : list nat) : dtable nat (dict nat nat) := DT (map (fun kb => (kb.1, if kb.2 =? 0 then [] else [(0, kb.2)])) (combine (seq 0 (length bins)) bins)).
Definition ex_par : sparams := SParams (Q2Qc (1 # 10)) (zq 0) 2 1.
Definition ex_cfg (depth step : nat) (bins : list nat) : pcfg nat := PCfg ex_par depth step [[zq 1; zq 2]] [(0, 0)] [true] (ex_data bins).
Definition ex_gbins : list nat := [0; 1; 0; 2].
Definition ex_hbins : list nat := [0; 0; 1; 1].
Definition ex_guest : pcfg nat := ex_cfg 3 1 ex_gbins.
Definition ex_host (i : nat) : pcfg nat := ex_cfg 3 1 ex_hbins.
Definition ex_party (bins : list nat) : party nat := Party (fun k _ => nth k bins 0) [2] [true] 2 1.
Definition ex_vg (k : nat) : Qc := nth k [zq 1; Q2Qc (1 # 2); zq (-1); Q2Qc (-1 # 2)] (zq 0).
Definition ex_vh (k : nat) : Qc := zq 1.
Definition ex_gh : dtable nat (Qc * Qc) := DT (map (fun k => (k, (ex_vg k, ex_vh k))) (seq 0 4)).
Definition ex_name (i : nat) : site := HostSite (Z.of_nat i).
Definition ex_sys (hdepth hstep : nat) := plain_sys 1 ex_guest (fun _ => ex_cfg hdepth hstep ex_hbins) ex_name IGain ex_gh.

Lemma ex_party_ok bins depth step : length bins = 4 -> Forall (fun b => b <= 2) bins -> party_ok (seq 0 4) (ex_cfg depth step bins) (ex_party bins).
Proof.
  intros L F. destruct bins as [|b0 [|b1 [|b2 [|b3 [|]]]]]; try discriminate. repeat rewrite Forall_cons in F. destruct F as (F0 & F1 & F2 & F3 & _).
  assert (EL : forall k r, (k, r) ∈ dt_data (ex_data [b0; b1; b2; b3]) -> exists b, nth k [b0; b1; b2; b3] 0 = b /\ b <= 2 /\ r = if b =? 0 then [] else [(0, b)]).
  { intros k r Hr. cbn in Hr. repeat rewrite elem_of_cons in Hr. destruct Hr as [[= -> ->]|[[= -> ->]|[[= -> ->]|[[= -> ->]|Hr]]]]; [cbn; eauto..|]. now apply elem_of_nil in Hr. }
  split.
  - unfold dt_wf. cbn. repeat constructor; intros X; repeat (apply elem_of_cons in X as [X|X]; [discriminate|]); now apply elem_of_nil in X.
  - intros k. reflexivity.
  - intros k r Hr. destruct (EL k r Hr) as (b & _ & _ & ->). destruct (b =? 0); cbn; repeat constructor. intros X. now apply elem_of_nil in X.
  - intros k r f Hr Hf. destruct (EL k r Hr) as (b & E & _ & ->). cbn in Hf. replace f with 0 by lia. cbn [ex_party p_bin]. rewrite E. unfold bin_of. cbn. destruct b; reflexivity.
  - intros k r f b Hr Hb. destruct (EL k r Hr) as (b' & _ & Lb & ->). destruct (Nat.eqb_spec b' 0); [discriminate|]. cbn in Hb. destruct (decide (f = 0)) as [->|]; [|discriminate].
    injection Hb as <-. exists [zq 1; zq 2]. auto.
  - intros [|f] pts H; cbn in H; [|discriminate]. injection H as <-. exists 0. cbn. split; [reflexivity|lia].
  - reflexivity.
  - reflexivity.
  - reflexivity.
  - reflexivity.
  - reflexivity.
Qed.

Lemma ex_ok : parties_ok (seq 0 4) 1 ex_guest ex_host (ex_party ex_gbins) [ex_party ex_hbins] ex_name ex_gh ex_vg ex_vh.
Proof.
  assert (G : party_ok (seq 0 4) ex_guest (ex_party ex_gbins)) by (apply ex_party_ok; [reflexivity|repeat constructor]).
  assert (H : forall i p, [ex_party ex_hbins] !! i = Some p -> p = ex_party ex_hbins).
  { intros [|i] p E; cbn in E; [now injection E as <-|discriminate]. }
  split.
  - split; [apply NoDup_ListNoDup, seq_NoDup|discriminate].
  - split; [reflexivity|lia].
  - exact G.
  - intros i p E. rewrite (H i p E). apply ex_party_ok; [reflexivity|repeat constructor].
  - split; [cbn; lia|]. intros i p E. rewrite (H i p E). cbn. lia.
  - intros i _. discriminate.
  - intros i j _ _ E. unfold ex_name in E. injection E. lia.
  - split; [discriminate|]. reflexivity.
  - reflexivity.
  - cbn. lia.
  - split; [exact (proj2 (NoDup_ListNoDup _) (seq_NoDup 4 0))|]. split; [reflexivity|]. intros k c Hc. cbn in Hc. repeat rewrite elem_of_cons in Hc.
    destruct Hc as [[= -> ->]|[[= -> ->]|[[= -> ->]|[[= -> ->]|Hc]]]]; [reflexivity..|]. now apply elem_of_nil in Hc.
Qed.

(** The hypotheses of the theorems hold for it. *)
Example ex_hyps : parties_ok (seq 0 4) 1 ex_guest ex_host (ex_party ex_gbins) [ex_party ex_hbins] ex_name ex_gh ex_vg ex_vh /\
  IGain <> IOther /\ c_depth ex_guest = 3 /\ (0 < reg_lambda (c_par ex_guest))%Qc /\ (forall k, k ∈ seq 0 4 -> (0 <= ex_vh k)%Qc).
Proof. split; [exact ex_ok|]. split; [discriminate|]. split; [reflexivity|]. split; [reflexivity|]. intros k _. discriminate. Qed.

(** What one schedule gives: seven entries, the host's feature at the root, the guest's below. *)
Definition shape (nd : node) := (n_id nd, n_site nd, n_fid nd, n_leaf nd, this (n_weight nd), n_left nd, n_right nd).
Definition ended {M} (s : sys M (@gstate nat) (list node * dict nat mval)) :=
  match s_guest s with
  | Ret st => Some (map shape (t_nodes st), map (fun kv => (kv.1, this (mnum kv.2))) (t_mask st),
                    option_map (fun w => map (fun kv => (kv.1, this kv.2)) (dt_data w)) (t_weights st),
                    map (fun h => match h.1.1 with Ret r => Some (map shape r.1, map (fun kv => (kv.1, this (mnum kv.2))) r.2, length h.1.2, length h.2) | _ => None end) (s_hosts s))
  | _ => None
  end.
Definition ex_nodes :=
  [(0, HostSite 0, Some 0, false, 0%Q, Some 1, Some 2); (1, GuestSite, Some 0, false, (-5 # 7)%Q, Some 3, Some 4); (2, GuestSite, Some 0, false, (5 # 7)%Q, Some 5, Some 6);
   (3, GuestSite, None, true, (-10 # 11)%Q, None, None); (4, GuestSite, None, true, (-5 # 11)%Q, None, None);
   (5, GuestSite, None, true, (10 # 11)%Q, None, None); (6, GuestSite, None, true, (5 # 11)%Q, None, None)].
Example ex_run : ended (run 1000 (ex_sys 3 1)).2 =
  Some (ex_nodes, [(1, 1%Q); (2, 1%Q)], Some [(0, (-10 # 11)%Q); (1, (-5 # 11)%Q); (2, (10 # 11)%Q); (3, (5 # 11)%Q)], [Some (ex_nodes, [(0, 1%Q)], 0, 0)]).
Proof. vm_compute. reflexivity. Qed.

(** The hypotheses of the Paillier theorems hold for it, too. *)
Example ex_paillier : exists sk, paillier_ok (seq 0 4) sk (fun _ => 1%Z) (fun _ => 1%Z) (fun _ _ => 1%Z) (reg_lambda (c_par ex_guest)) (min_impurity (c_par ex_guest)) ex_vg ex_vh 2.
Proof.
  destruct (prime_above_Z (2 ^ 1000)) as (p & Hp & Pp). destruct (prime_above_Z p) as (q & Hq & Pq).
  assert (NE : p <> q) by lia. destruct (mk_privkey_ok p q Pp Pq NE) as (sk & Hsk & _).
  assert (KP : keypair (p * q) sk) by (exists p, q; auto).
  assert (BIG : (2 ^ 1000 <= p * q)%Z) by (assert (0 < 2 ^ 1000)%Z by reflexivity; nia).
  destruct (keypair_good _ _ KP) as [G EN]. rewrite <- EN in *. exists sk. split.
  - exact KP.
  - exact BIG.
  - intros. apply Z.gcd_1_l.
  - intros. apply Z.gcd_1_l.
  - intros. apply Z.gcd_1_l.
  - reflexivity.
  - intros k Hk. apply elem_of_list_In, in_seq in Hk. destruct k as [|[|[|[|k]]]]; [split; [|split]; vm_compute; discriminate..|lia].
  - vm_compute. discriminate.
  - vm_compute. discriminate.
  - vm_compute. discriminate.
  - vm_compute. discriminate.
Qed.

(** Nothing checks that the parties agree on max_depth or on max_split_nodes. If the host's max_depth is 2 and the guest's is
    3, or its max_split_nodes 2 and the guest's 1, then every schedule stops with the guest waiting for ever. *)
Theorem C47_mismatch_refuted : exists (gcfg hcfg hcfg' : pcfg nat) (gh : dtable nat (Qc * Qc)) (name : nat -> site),
  (c_depth hcfg <> c_depth gcfg /\ c_step hcfg = c_step gcfg) /\ (c_depth hcfg' = c_depth gcfg /\ c_step hcfg' <> c_step gcfg) /\
  forall h, h = hcfg \/ h = hcfg' -> exists N s, nf step s /\ (forall r, s_guest s <> Ret r) /\
    forall m s', nsteps step m (plain_sys 1 gcfg (fun _ => h) name IGain gh) s' -> m <= N /\ nsteps step (N - m) s' s.
Proof.
  exists ex_guest, (ex_cfg 2 1 ex_hbins), (ex_cfg 3 2 ex_hbins), ex_gh, ex_name. split; [split; [discriminate|reflexivity]|]. split; [split; [reflexivity|discriminate]|].
  intros h Hh. set (s0 := plain_sys 1 ex_guest (fun _ => h) ex_name IGain ex_gh).
  assert (ST : is_stuck (run 100 s0).2 = true) by (destruct Hh as [-> | ->]; vm_compute; reflexivity).
  assert (GW : match s_guest (run 100 s0).2 with Recv _ _ => true | _ => false end = true) by (destruct Hh as [-> | ->]; vm_compute; reflexivity).
  destruct (always_run 100 s0 ST) as (N & A). exists N, (run 100 s0).2. split; [now apply stuck_nf|]. split; [|exact A]. intros r E. rewrite E in GW. discriminate GW.
Qed.
Print Assumptions C47_mismatch_refuted.
