(** C67. *)
From Verif Require Import SocketProofs ScriptProofs P_Tree P_Binning FloatProofs P_Pipe P_Boost P_Input P_Script.
Local Open Scope nat_scope.

Section Socket.
  Context {G : Type} (seeded : Z -> G) (below : G -> nat -> nat * G) (py_float : text -> option Qc).
  Context (rnd : Qc -> Qc) (pred : loss_kind -> list Qc -> list Qc) (lossf : loss_kind -> dtable nat nat -> dtable nat (list Qc) -> Qc).
  Context (nh n m : nat) (sname : nat -> site) (it : imp_type) (P : bparams) (bp : bin_params) (par : sparams) (depth stp d fuel : nat).
  Context (gdraw : nat -> nat -> nat -> list nat) (hdraw : nat -> nat -> nat -> nat -> list nat) (threshold ratio : Qc).
  Context (gfile : text) (gh : list text) (grecs : list (record Qc)) (hfile : nat -> text) (hh : nat -> list text) (hrecs : nat -> list (record Qc)).
  Local Notation scripts := (scripts seeded below py_float rnd pred lossf nh sname it P bp par depth stp fuel gdraw hdraw threshold ratio gfile hfile).
  Local Notation outcome := (outcome rnd pred lossf nh n m P bp par d gdraw hdraw threshold gh grecs hh hrecs).

  (** The programs of C66 with the bytes that they write and read: with buffers of any size from 16 bytes on, whatever the pieces
      in which the bytes are written and payloads are read, every schedule with whole headers ends as described in C66. *)
  Theorem C67_plain gen hgen ser des cd cu : files_ok py_float bp nh n m ratio gfile gh grecs hfile hh hrecs -> settings_ok rnd pred nh sname P par depth stp d gdraw hdraw -> in_range below -> d < fuel -> it <> IOther -> m < n ->
    roomy nh cd cu -> carries (scripts (fun _ => Ok) Ok Ok (fun _ _ _ x => Ok x) qops gen hgen) (intact ser des) ->
    outcome (fun v => v) (fun v => v) (fun x => x) Ok (socket_ends ser des cd cu (scripts (fun _ => Ok) Ok Ok (fun _ _ _ x => Ok x) qops gen hgen)).
  Proof.
    intros FO SO IR HF Hit Hmn RM CA. eapply plain_outcome; eauto. intros r rs H. apply done_sockets; [|exact CA|exact H]. cbn. now rewrite map_length, seq_length.
  Qed.
  Theorem C67_paillier gen hgen sk rg rh rr ser des cd cu : files_ok py_float bp nh n m ratio gfile gh grecs hfile hh hrecs -> settings_ok rnd pred nh sname P par depth stp d gdraw hdraw -> in_range below -> d < fuel -> it <> IOther -> m < n ->
    boost_paillier_ok (seq 0 m) sk rg rh rr (reg_lambda par) (min_impurity par) d ->
    roomy nh cd cu -> carries (scripts (fun j => enc_table (sk_n sk) (rg j) (rh j)) (pdec sk) (fun e => pdec sk (CEnc e)) (fun j => pgenc (sk_n sk) (rr j)) pops gen hgen) (intact ser des) ->
    outcome (fun v k => leaf_value (sk_n sk) (v k)) (fun v k => leaf_value (sk_n sk) (v k)) fround (prt (sk_n sk))
      (socket_ends ser des cd cu (scripts (fun j => enc_table (sk_n sk) (rg j) (rh j)) (pdec sk) (fun e => pdec sk (CEnc e)) (fun j => pgenc (sk_n sk) (rr j)) pops gen hgen)).
  Proof.
    intros FO SO IR HF Hit Hmn PK RM CA. eapply paillier_outcome; eauto. intros r rs H. apply done_sockets; [|exact CA|exact H]. cbn. now rewrite map_length, seq_length.
  Qed.
End Socket.
Print Assumptions C67_plain.
Print Assumptions C67_paillier.

(** ** Example: the files of C66, messages numbered and written as one byte *)
(** Equality of messages, decided by computation. *)
Definition via_inj {A B} `{EqDecision B} (f : A -> B) (I : forall x y, f x = f y -> x = y) : EqDecision A :=
  fun x y => match decide (f x = f y) with left e => left (I x y e) | right ne => right (fun e => ne (f_equal f e)) end.
Definition site_parts (x : site) : option Z := match x with GuestSite => None | HostSite i => Some i end.
Lemma site_inj x y : site_parts x = site_parts y -> x = y. Proof. destruct x, y; cbn; congruence. Qed.
Definition node_parts (x : node) := (n_id x, site_parts (n_site x), n_fid x, n_weight x, n_leaf x, n_grad x, n_hess x, n_left x, n_right x).
Lemma node_inj x y : node_parts x = node_parts y -> x = y. Proof. destruct x, y. cbn. intros [= -> E -> -> -> -> -> -> ->]. apply site_inj in E as ->. reflexivity. Qed.
Global Instance node_eq_dec : EqDecision node := via_inj node_parts node_inj.
Lemma dtable_inj {K V} (x y : dtable K V) : (dt_data x : list (K * V)) = dt_data y -> x = y. Proof. destruct x, y. cbn. now intros ->. Qed.
Global Instance dtable_eq_dec {K V} `{EqDecision K} `{EqDecision V} : EqDecision (dtable K V) := via_inj (fun x => dt_data x : list (K * V)) dtable_inj.
Definition disp_parts (x : disp) : Qc + ((Z * nat) + (Z * option nat * option Z * nat * option nat * option nat)) :=
  match x with DLeaf w => inl w | DGo s i => inr (inl (s, i)) | DHost s f sn i l r => inr (inr (s, f, site_parts sn, i, l, r)) end.
Lemma disp_inj x y : disp_parts x = disp_parts y -> x = y. Proof. destruct x, y; cbn; try congruence. intros [= -> -> E -> -> ->]. apply site_inj in E as ->. reflexivity. Qed.
Global Instance disp_eq_dec : EqDecision disp := via_inj disp_parts disp_inj.
Definition si_parts {C E} (x : splitinfo C E) := (site_parts (si_site x), si_fid x, si_bid x, si_grad x, si_hess x, si_gain x).
Lemma si_inj {C E} (x y : splitinfo C E) : si_parts x = si_parts y -> x = y. Proof. destruct x, y. cbn. intros [= EQ -> -> -> -> ->]. apply site_inj in EQ as ->. reflexivity. Qed.
Global Instance splitinfo_eq_dec {C E} `{EqDecision C} `{EqDecision E} : EqDecision (splitinfo C E) := via_inj si_parts si_inj.
Definition msg_parts {K C E} (x : msg K C E) : ((dtable K (C * C)) + ((list nat) + ((dtable K disp) + ((list (list (option C * option C))) + ((list (option nat * E)) + ((list (splitinfo C E)) + ((dtable K disp) + ((dtable K disp) + ((list node) + ((bool) + ((dtable K (nat * Z)) + ((dtable K (nat * Z)) + ((nat) + (bool))%type)%type)%type)%type)%type)%type)%type)%type)%type)%type)%type)%type)%type :=
  match x with
  | MGH x => inl x
  | MQueue x => inr (inl x)
  | MPos x => inr (inr (inl x))
  | MCand x => inr (inr (inr (inl x)))
  | MBest x => inr (inr (inr (inr (inl x))))
  | MFinal x => inr (inr (inr (inr (inr (inl x)))))
  | MDisp x => inr (inr (inr (inr (inr (inr (inl x))))))
  | MDispR x => inr (inr (inr (inr (inr (inr (inr (inl x)))))))
  | MTree x => inr (inr (inr (inr (inr (inr (inr (inr (inl x))))))))
  | MTag x => inr (inr (inr (inr (inr (inr (inr (inr (inr (inl x)))))))))
  | MPred x => inr (inr (inr (inr (inr (inr (inr (inr (inr (inr (inl x))))))))))
  | MPredR x => inr (inr (inr (inr (inr (inr (inr (inr (inr (inr (inr (inl x)))))))))))
  | MDim x => inr (inr (inr (inr (inr (inr (inr (inr (inr (inr (inr (inr (inl x))))))))))))
  | MStop x => inr (inr (inr (inr (inr (inr (inr (inr (inr (inr (inr (inr (inr (x)))))))))))))
  end.
Lemma msg_inj {K C E} (x y : msg K C E) : msg_parts x = msg_parts y -> x = y. Proof. destruct x, y; cbn; congruence. Qed.
Global Instance msg_eq_dec {K C E} `{EqDecision K} `{EqDecision C} `{EqDecision E} : EqDecision (msg K C E) := via_inj msg_parts msg_inj.
Definition offers {M R T} (s : sys M R T) : list M :=
  match s_guest s with Send _ m _ => [m] | _ => [] end ++ omap (fun h : proc unit M T * list M * list M => match h.1.1 with Send _ m _ => Some m | _ => None end) (s_hosts s).
Fixpoint trail {M R T} (fuel : nat) (s : sys M R T) : list M :=
  match fuel with 0 => [] | S f => offers s ++ match some_step s with Some t => trail f t | None => [] end end.
Definition sex_msgs : list (msg nat Qc Qc) := remove_dups (trail 1000 (sex_sys sex_hrecs)).
Definition sex_ser (m : msg nat Qc Qc) : bytes := [128; 4; Z.of_nat (match list_find (fun x => x = m) sex_msgs with Some (i, _) => i | None => 0 end); 46]%Z.
Definition sex_des (b : bytes) : res (msg nat Qc Qc) :=
  match b with [128; 4; z; 46]%Z => match sex_msgs !! Z.to_nat z with Some m => Ok m | None => Err ValueError end | _ => Err ValueError end.
Lemma sysof_quiet {M R T} k (g : proc nat M R) (h : nat -> proc unit M T) : forall i p d u, s_hosts (sysof k g h) !! i = Some (p, d, u) -> d = [] /\ u = [].
Proof. intros i p d u L. apply elem_of_list_lookup_2, elem_of_list_fmap in L as (x & [= -> -> ->] & _). split; reflexivity. Qed.
Definition sex_fenced := (run 1000 (gsys (fun m => bool_decide (m ∈ sex_msgs)) (sex_sys sex_hrecs))).2.
Definition sex_result : option Qc := match s_guest sex_fenced with Ret r => r | _ => None end.
Lemma sex_carries : carries (sex_sys sex_hrecs) (intact sex_ser sex_des).
Proof.
  assert (X : carries (sex_sys sex_hrecs) (fun m => bool_decide (m ∈ sex_msgs) = true)).
  { assert (E : sex_fenced = done sex_result [tt]) by (vm_compute; reflexivity).
    apply (fence_carries _ 1000 _ sex_result [tt]); [|exact E]. unfold sex_sys, scripts. apply sysof_quiet. }
  intros s i p d u ST L. eapply Forall_impl; [exact (X s i p d u ST L)|]. cbv beta. intros m Hm. apply bool_decide_eq_true_1 in Hm. split; [|vm_compute; reflexivity].
  destruct (list_find_elem_of (fun x => x = m) sex_msgs m Hm eq_refl) as [[k x] F]. unfold sex_ser. rewrite F. apply list_find_Some in F as (F & -> & _). unfold sex_des. now rewrite Nat2Z.id, F.
Qed.
(** The hypotheses of C67_plain, beyond those of C66_plain in C66_ex; the messages are 28 different ones, so that their numbers are bytes. *)
Example C67_ex : roomy 1 (fun _ => 16) (fun _ => 20) /\ carries (sex_sys sex_hrecs) (intact sex_ser sex_des) /\ length sex_msgs = 28.
Proof. split; [intros i _; split; lia|]. split; [exact sex_carries|vm_compute; reflexivity]. Qed.
(** Those of C67_paillier, beyond those of C66_paillier. *)
Global Instance enum_eq_dec : EqDecision enum. Proof. solve_decision. Defined.
Global Instance pynum_eq_dec : EqDecision pynum. Proof. solve_decision. Defined.
Global Instance pcell_eq_dec : EqDecision PaillierModel.cell. Proof. solve_decision. Defined.
Example C67_paillier_ex : exists sk ser des, boost_paillier_ok (seq 0 4) sk (fun _ _ => 1%Z) (fun _ _ => 1%Z) (fun _ _ _ => 1%Z) (reg_lambda pex_par) (min_impurity pex_par) 2 /\
  carries (scripts (fun _ => 1) sex_below sex_float fround bex_pred bex_loss 1 ex_name IGain (bex_par 2 false) pex_bp pex_par 3 4 3 (fun _ _ => bex_draw) (fun _ _ _ => bex_draw) (Q2Qc (1 # 2)) (Q2Qc (2 # 3))
    sex_gfile (fun _ => sex_hfile sex_hrecs) (fun j => enc_table (sk_n sk) (fun _ => 1%Z) (fun _ => 1%Z)) (pdec sk) (fun e => pdec sk (CEnc e)) (fun j => pgenc (sk_n sk) (fun _ _ => 1%Z)) pops 7 (fun _ => 8)) (intact ser des).
Proof.
  destruct C66_ex as (FO & SO & IR & sk & PK). exists sk.
  destruct (C66_paillier (fun _ => 1) sex_below sex_float fround bex_pred bex_loss 1 6 4 ex_name IGain (bex_par 2 false) pex_bp pex_par 3 4 2 3 (fun _ _ => bex_draw) (fun _ _ _ => bex_draw) (Q2Qc (1 # 2)) (Q2Qc (2 # 3))
    sex_gfile [[120%Z]] sex_grecs (fun _ => sex_hfile sex_hrecs) (fun _ => [[122%Z]]) (fun _ => sex_hrecs) 7 (fun _ => 8) sk (fun _ _ => 1%Z) (fun _ _ => 1%Z) (fun _ _ _ => 1%Z) FO SO IR ltac:(lia) ltac:(discriminate) ltac:(lia) PK)
    as (tr & te & g & hs & labels & ls & res & hres & classes & lab & gpts & hpts & guest & hosts & T & right & _ & _ & _ & _ & _ & _ & _ & _ & _ & N & EN).
  destruct (EN 0 _ ltac:(constructor)) as [_ RUN]. rewrite Nat.sub_0_r in RUN. destruct (carries_intact _ _ N RUN (done_nf _ _)) as (ser & des & CA). exists ser, des. split; [exact PK|exact CA].
Qed.

(** ** Headers in pieces *)
Definition none_ser (_ : unit) : bytes := [128; 4; 78; 46]%Z.
Definition none_des (b : bytes) : res unit := if decide (b = [128; 4; 78; 46]%Z) then Ok tt else Err ValueError.
Definition one_message : sys unit unit unit := Sys (Send 0 tt (Ret tt)) [(Recv tt (fun _ => Ret tt), [], [])].
(** One message, None: with whole headers both parties return; a host that gets only the first byte of the header raises. *)
Theorem C67_split_refuted : exists (s0 : sys unit unit unit) ser des cd cu s e d u, roomy 1 cd cu /\ carries s0 (intact ser des) /\ socket_ends ser des cd cu s0 tt [tt] /\
  rtc (bstep False cd cu) (on_sockets ser des s0) s /\ s = BSys (BRet tt) [(BFail e, d, u)].
Proof.
  assert (IN : forall x, intact none_ser none_des x) by (intros []; split; [reflexivity|vm_compute; reflexivity]).
  assert (CA : carries one_message (intact none_ser none_des)). { intros s i p d u _ _. apply Forall_forall. intros x _. apply IN. }
  exists one_message, none_ser, none_des, (fun _ => 100), (fun _ => 100).
  eexists _, ValueError, _, []. split; [intros i _; split; lia|]. split; [exact CA|]. split.
  { apply done_sockets; [intros i _; split; lia|exact CA|]. eapply rtc_l; [apply (hand_down 0 tt (Ret tt) (fun _ => Ret tt)); reflexivity|]. constructor. }
  split; [|reflexivity].
  assert (S1 : on_sockets none_ser none_des one_message = BSys (BWrite 0 52%Z (replicate 15 32)%Z (BWrite 0 128%Z [4; 78; 46]%Z (BRet tt))) [(wire none_ser none_des (Recv tt (fun _ => Ret tt)), [], [])]) by reflexivity.
  rewrite S1.
  eapply rtc_l; [eapply (b_gwrite False _ _ 0 52%Z (replicate 15 32%Z) _ [] _ [(wire none_ser none_des (Recv tt (fun _ => Ret tt)), [], [])] _ [] []); [reflexivity|reflexivity|cbn; lia]|].
  cbn [write app list_insert insert].
  eapply rtc_l; [eapply (b_hhead False _ _ _ 0 _ [52%Z] _ (replicate 15 32%Z) []); [reflexivity|cbn; lia|easy]|].
  eapply rtc_l; [eapply (b_gwrite False _ _ 0 128%Z [4; 78; 46]%Z _ []); [reflexivity|reflexivity|cbn; lia]|].
  eapply rtc_l; [eapply (b_hbody False _ _ _ 0 3 [] _ [32; 32; 32; 32]%Z _ (replicate 11 32 ++ [128; 4; 78; 46])%Z); [reflexivity|cbn; lia]|].
  apply rtc_refl.
Qed.
Print Assumptions C67_split_refuted.

(** ** Headers without a number *)
Lemma no_digits l acc : Forall (fun b => ~ (48 <= b <= 57)%Z) l -> parse_digits acc false l = None.
Proof.
  intros F. destruct F as [|b l Hb _]; [reflexivity|]. cbn [parse_digits]. assert (E : is_digit b = false). { unfold is_digit. destruct (Z.leb_spec 48 b), (Z.leb_spec b 57); try reflexivity. lia. }
  rewrite E, andb_false_r. reflexivity.
Qed.
Lemma no_number l : Forall (fun b => ~ (48 <= b <= 57)%Z) l -> parse_int l = None.
Proof.
  intros F. assert (S : Forall (fun b => ~ (48 <= b <= 57)%Z) (TransferModel.strip l)).
  { assert (L : forall x : bytes, Forall (fun b => ~ (48 <= b <= 57)%Z) x -> Forall (fun b => ~ (48 <= b <= 57)%Z) (lstrip x)).
    { intros x Hx. induction Hx as [|b x Hb Hx IH]; [constructor|]. cbn [lstrip]. destruct (is_ws b); [exact IH|]. now constructor. }
    unfold TransferModel.strip. apply Forall_reverse, L, Forall_reverse, L, F. }
  unfold parse_int. destruct (TransferModel.strip l) as [|b l']; [reflexivity|]. apply Forall_cons in S as [Hb S].
  repeat first [now apply no_digits | rewrite (no_digits l' 0 S); reflexivity | apply no_digits; now constructor | match goal with |- context [match ?b with _ => _ end] => is_var b; destruct b end].
Qed.
(** A party that waits for a message and gets bytes without a digit for a header raises ValueError, whatever it would have done
    with the message. *)
Theorem C67_no_number M R T (ser : M -> bytes) (des : bytes -> res M) (whole : Prop) cd cu (c : bytes) : Forall (fun b => ~ (48 <= b <= 57)%Z) c -> 1 <= length c <= 16 -> (whole -> length c = 16) ->
  (forall (g : bprog nat R) hs j (k : M -> proc unit M T) d u, hs !! j = Some (wire ser des (Recv tt k), c ++ d, u) -> bstep whole cd cu (BSys g hs) (BSys g (<[j := (BFail ValueError, d, u)]> hs))) /\
  (forall i (k : M -> proc nat M R) (hs : list (bprog unit T * bytes * bytes)) p d u, hs !! i = Some (p, d, c ++ u) -> bstep whole cd cu (BSys (wire ser des (Recv i k)) hs) (BSys (BFail ValueError) (<[i := (p, d, u)]> hs))).
Proof.
  intros F L W. assert (E : parse_int (take 16 c) = None) by (apply no_number, Forall_take, F). split.
  - intros g hs j k d u H. pose proof (b_hhead whole cd cu g j _ c hs d u H L W) as X. cbv beta in X. rewrite E in X. exact X.
  - intros i k hs p d u H. pose proof (b_ghead whole cd cu i (fun msg => match parse_int (take 16 msg) with None => BFail ValueError | Some len => body i (Z.to_nat len) [] (fun full => match des full with Ok m => wire ser des (k m) | Err e => BFail e end) end) c hs p d u H L W) as X.
    cbv beta in X. rewrite E in X. exact X.
Qed.
Print Assumptions C67_no_number.
(** The rest of a header that was read in pieces. *)
Example C67_no_number_ex : Forall (fun b => ~ (48 <= b <= 57)%Z) (replicate 15 32%Z) /\ bstep False (fun _ => 100) (fun _ => 100)
  (BSys (BRet tt) [(wire none_ser none_des (Recv tt (fun _ => Ret tt)), replicate 15 32%Z ++ [128; 4]%Z, [])]) (BSys (BRet tt) [(BFail ValueError, [128; 4]%Z, [])]).
Proof.
  assert (F : Forall (fun b => ~ (48 <= b <= 57)%Z) (replicate 15 32%Z)) by (apply Forall_replicate; lia). split; [exact F|].
  destruct (C67_no_number unit unit unit none_ser none_des False (fun _ => 100) (fun _ => 100) (replicate 15 32%Z) F ltac:(cbn; lia) ltac:(easy)) as [A _].
  exact (A (BRet tt) [(wire none_ser none_des (Recv tt (fun _ => Ret tt)), replicate 15 32%Z ++ [128; 4]%Z, [])] 0 (fun _ => Ret tt) [128; 4]%Z [] eq_refl).
Qed.
