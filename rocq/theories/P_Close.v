(** C77. *)
From Verif Require Import SocketProofs ScriptProofs P_Tree P_Binning FloatProofs P_Pipe P_Boost P_Input P_Script P_Socket.
From Verif Require Import CloseModel CloseSpec CloseProofs.
Local Open Scope nat_scope.

Section Close.
  Context {G : Type} (seeded : Z -> G) (below : G -> nat -> nat * G) (py_float : text -> option Qc).
  Context (rnd : Qc -> Qc) (pred : loss_kind -> list Qc -> list Qc) (lossf : loss_kind -> dtable nat nat -> dtable nat (list Qc) -> Qc).
  Context (nh n m : nat) (sname : nat -> site) (it : imp_type) (P : bparams) (bp : bin_params) (par : sparams) (depth stp d fuel : nat).
  Context (gdraw : nat -> nat -> nat -> list nat) (hdraw : nat -> nat -> nat -> nat -> list nat) (threshold ratio : Qc).
  Context (gfile : text) (gh : list text) (grecs : list (record Qc)) (hfile : nat -> text) (hh : nat -> list text) (hrecs : nat -> list (record Qc)).
  Local Notation scripts := (scripts seeded below py_float rnd pred lossf nh sname it P bp par depth stp fuel gdraw hdraw threshold ratio gfile hfile).
  Local Notation outcome := (outcome rnd pred lossf nh n m P bp par d gdraw hdraw threshold gh grecs hh hrecs).

  (** The programs of C67 whose connections are closed when a program ends: if nobody is killed, all schedules end as in C67, since no
      party ends while a partner still needs it; and if any parties die at any moments, every schedule ends, but for endless empty
      reads, and the guest never returns another result. *)
  Theorem C77_plain gen hgen ser des cd cu e : files_ok py_float bp nh n m ratio gfile gh grecs hfile hh hrecs -> settings_ok rnd pred nh sname P par depth stp d gdraw hdraw -> in_range below -> d < fuel -> it <> IOther -> m < n ->
    roomy nh cd cu -> carries (scripts (fun _ => Ok) Ok Ok (fun _ _ _ x => Ok x) qops gen hgen) (intact ser des) -> des [] = Err e ->
    outcome (fun v => v) (fun v => v) (fun x => x) Ok (fun r rs =>
      closing_ends ser des cd cu (scripts (fun _ => Ok) Ok Ok (fun _ _ _ x => Ok x) qops gen hgen) r rs /\
      dies_cleanly ser des cd cu (scripts (fun _ => Ok) Ok Ok (fun _ _ _ x => Ok x) qops gen hgen) r).
  Proof.
    intros FO SO IR HF Hit Hmn RM CA D. eapply plain_outcome; eauto. intros r rs H.
    assert (X : socket_ends ser des cd cu (scripts (fun _ => Ok) Ok Ok (fun _ _ _ x => Ok x) qops gen hgen) r rs) by (apply done_sockets; [|exact CA|exact H]; cbn; now rewrite map_length, seq_length).
    split; [now apply ends_closing|now apply (ends_dies _ _ _ _ e _ _ rs)].
  Qed.
  Theorem C77_paillier gen hgen sk rg rh rr ser des cd cu e : files_ok py_float bp nh n m ratio gfile gh grecs hfile hh hrecs -> settings_ok rnd pred nh sname P par depth stp d gdraw hdraw -> in_range below -> d < fuel -> it <> IOther -> m < n ->
    boost_paillier_ok (seq 0 m) sk rg rh rr (reg_lambda par) (min_impurity par) d ->
    roomy nh cd cu -> carries (scripts (fun j => enc_table (sk_n sk) (rg j) (rh j)) (pdec sk) (fun e => pdec sk (CEnc e)) (fun j => pgenc (sk_n sk) (rr j)) pops gen hgen) (intact ser des) -> des [] = Err e ->
    outcome (fun v k => leaf_value (sk_n sk) (v k)) (fun v k => leaf_value (sk_n sk) (v k)) fround (prt (sk_n sk)) (fun r rs =>
      closing_ends ser des cd cu (scripts (fun j => enc_table (sk_n sk) (rg j) (rh j)) (pdec sk) (fun e => pdec sk (CEnc e)) (fun j => pgenc (sk_n sk) (rr j)) pops gen hgen) r rs /\
      dies_cleanly ser des cd cu (scripts (fun j => enc_table (sk_n sk) (rg j) (rh j)) (pdec sk) (fun e => pdec sk (CEnc e)) (fun j => pgenc (sk_n sk) (rr j)) pops gen hgen) r).
  Proof.
    intros FO SO IR HF Hit Hmn PK RM CA D. eapply paillier_outcome; eauto. intros r rs H.
    assert (X : socket_ends ser des cd cu (scripts (fun j => enc_table (sk_n sk) (rg j) (rh j)) (pdec sk) (fun e => pdec sk (CEnc e)) (fun j => pgenc (sk_n sk) (rr j)) pops gen hgen) r rs) by (apply done_sockets; [|exact CA|exact H]; cbn; now rewrite map_length, seq_length).
    split; [now apply ends_closing|now apply (ends_dies _ _ _ _ e _ _ rs)].
  Qed.
End Close.
Print Assumptions C77_plain.
Print Assumptions C77_paillier.
(** The hypotheses are those of C67 (C67_ex, C67_paillier_ex) and that the empty string is no pickle. *)
Example C77_ex : sex_des [] = Err ValueError. Proof. reflexivity. Qed.

(** A partner that has ended with all its messages read: the next receive raises ValueError, from int(b''). *)
Theorem C77_gone M R T (ser : M -> bytes) (des : bytes -> res M) cd cu :
  (forall i (k : M -> proc nat M R) (hs : list (bprog unit T * bytes * bytes)) p d, hs !! i = Some (p, d, []) -> ended p ->
     cstep cd cu (BSys (wire ser des (Recv i k)) hs) (BSys (BFail ValueError) hs) /\
     forall t, cstep cd cu (BSys (wire ser des (Recv i k)) hs) t -> (exists e, t = BSys (BFail e) hs) \/ b_guest t = wire ser des (Recv i k)) /\
  (forall (g : bprog nat R) hs j (k : M -> proc unit M T) u, hs !! j = Some (wire ser des (Recv tt k), [], u) -> ended g ->
     cstep cd cu (BSys g hs) (BSys g (<[j := (BFail ValueError, [], u)]> hs))).
Proof.
  assert (E : parse_int (take 16 []) = None) by reflexivity. split.
  - intros i k hs p d H EP. split.
    + pose proof (c_ghead cd cu i (fun msg => match parse_int (take 16 msg) with None => BFail ValueError | Some len => body i (Z.to_nat len) [] (fun full => match des full with Ok m => wire ser des (k m) | Err e => BFail e end) end) hs p d [] H EP ltac:(cbn; lia)) as X.
      cbv beta in X. rewrite E, (list_insert_id _ _ _ H) in X. exact X.
    + intros t ST. cbn [wire] in ST |- *. inversion ST as [? ? B|? ? ? ? ? u L ? ?|? ? ? ? ? ? ? ? ? L| | | | | |]; subst; try (left; eauto; fail); try (right; reflexivity).
      * inversion B as [|? ? c ? ? ? ? L LC| | | |]; subst; [|right; reflexivity..]. rewrite L in H. injection H as -> -> X. apply app_nil in X as [-> ->]. cbn in LC. lia.
      * rewrite L in H. injection H as -> -> ->. left. exists ValueError. cbv beta. rewrite E. now rewrite (list_insert_id _ _ _ L).
  - intros g hs j k u H EG. pose proof (c_hhead cd cu g j _ hs [] u H EG ltac:(cbn; lia)) as X. cbv beta in X. rewrite E in X. exact X.
Qed.
Print Assumptions C77_gone.
Example C77_gone_ex : [(@BRet unit unit tt, @nil Z, @nil Z)] !! 0 = Some (BRet tt, [], []) /\ ended (@BRet unit unit tt).
Proof. split; [reflexivity|exact I]. Qed.

(** An empty read changes nothing: a party that gets one reads for ever. *)
Theorem C77_empty_read R T (s t : bsys R T) : empty_read s t -> s = t.
Proof. intros H. inversion H; subst; rewrite body_body; [reflexivity|]. now rewrite list_insert_id. Qed.
Print Assumptions C77_empty_read.

(** ** The death of one host can leave the others waiting for ever *)
(** Host 0 sends None to the guest, and the guest sends None to host 1. *)
Definition relay : sys unit unit unit := Sys (Recv 0 (fun _ => Send 1 tt (Ret tt))) [(Send tt tt (Ret tt), [], []); (Recv tt (fun _ => Ret tt), [], [])].
Lemma relay_ends : socket_ends none_ser none_des (fun _ => 100) (fun _ => 100) relay tt [tt; tt].
Proof.
  assert (IN : forall x, intact none_ser none_des x) by (intros []; split; [reflexivity|vm_compute; reflexivity]).
  apply done_sockets; [intros i _; split; lia|intros s i p d u _ _; apply Forall_forall; intros x _; apply IN|].
  eapply rtc_l; [eapply (hand_up 0 tt); reflexivity|]. eapply rtc_l; [eapply (hand_down 1 tt); reflexivity|]. constructor.
Qed.
(** Host 0 dies with one byte of its message written: the guest reads empty strings for ever, and host 1, with whom nothing is wrong,
    waits for the guest for ever. *)
Theorem C77_death_refuted : exists (s0 : sys unit unit unit) ser des cd cu s k, socket_ends ser des cd cu s0 tt [tt; tt] /\ dies_cleanly ser des cd cu s0 tt /\
  rtc (kstep cd cu) (on_sockets ser des s0) s /\ nf (cstep cd cu) s /\ guest_spins s /\ empty_read s s /\ b_hosts s !! 1 = Some (BHead tt k, [], []).
Proof.
  exists relay, none_ser, none_des, (fun _ => 100), (fun _ => 100).
  set (K := fun full => match none_des full with Ok m => wire none_ser none_des (Send 1 tt (Ret tt)) | Err e => BFail e end : bprog nat unit).
  set (W1 := wire none_ser none_des (Recv tt (fun _ => Ret tt)) : bprog unit unit).
  exists (BSys (BBody 0 2 [128%Z] K) [(BFail ValueError, [], []); (W1, [], [])]). eexists.
  split; [exact relay_ends|]. split; [exact (ends_dies _ _ _ _ ValueError _ _ _ eq_refl relay_ends)|]. split; [|split; [|split; [|split; [|reflexivity]]]].
  - eapply rtc_l; [left; apply c_step; eapply (b_hwrite True _ _ _ 0 52%Z (replicate 15 32%Z) _ []); [reflexivity|now rewrite app_nil_r|cbn; lia]|].
    eapply rtc_l; [left; apply c_step; eapply (b_hwrite True _ _ _ 0 128%Z [] _ [4; 78; 46]%Z); [reflexivity|reflexivity|cbn; lia]|].
    eapply rtc_l; [left; apply c_step; eapply (b_ghead True _ _ 0 _ (52 :: replicate 15 32)%Z _ _ [] [128%Z]); [reflexivity|cbn; lia|reflexivity]|].
    eapply rtc_l; [left; apply c_step; eapply (b_gbody True _ _ 0 3 [] _ [128%Z] _ _ [] []); [reflexivity|cbn; lia]|].
    eapply rtc_l; [right; eapply (k_host _ 0 _ [] [] ValueError); [reflexivity|intros []]|]. apply rtc_refl.
  - intros [t ST]. inversion ST as [? ? B| | | |? ? ? ? ? ? ? ? ? L ? NE| | | |]; subst; try (match goal with H : ended (BBody _ _ _ _) |- _ => destruct H end).
    + inversion B as [| |? ? ? ? c ? ? ? ? L LC|? j ? ? ? ? ? ? ? ? L|? j ? c ? ? ? L LC|? j ? ? ? ? ? ? ? L LC]; subst.
      * cbn in L. injection L as _ _ E. destruct c; [cbn in LC; lia|discriminate].
      * destruct j as [|[|j]]; discriminate.
      * destruct j as [|[|j]]; try discriminate. cbn in L. injection L as _ E _. destruct c; [cbn in LC; lia|discriminate].
      * destruct j as [|[|j]]; discriminate.
    + cbn in L. injection L as _ <- _. now apply NE.
  - exists 0, 2, [128%Z], K, (BFail ValueError), []. repeat split.
  - exact (e_guest 0 2 [128%Z] K [(BFail ValueError, [], []); (W1, [], [])] (BFail ValueError) [] eq_refl I).
Qed.
Print Assumptions C77_death_refuted.
