(** Model of ml/tree/splitter.py, ml/tree/creterion.py, ml/tree/node.py and the split selection of
    ml/tree/hetero_decision_tree_guest.py and hetero_decision_tree_host.py. Sums, gains and weights on the guest are exact
    rationals: float rounding of the guest's own arithmetic is left out. *)
From Verif Require Export HistModel EncryptModeModel.
Local Open Scope nat_scope.

(** Site names: "guest" (ml/utils/consts.py:19) and "host.<runtime_idx>" (hetero_decision_tree_host.py:43-45). *)
Inductive site : Type := GuestSite | HostSite (runtime_idx : Z).
Global Instance site_eq_dec : EqDecision site.
Proof. solve_decision. Defined.

(** splitter.py:16-30 and decision_tree.py:29-36: the parameters of the search; [reg_lambda] is the criterion's. *)
Record sparams : Type := SParams { reg_lambda : Qc; min_impurity : Qc; min_sample : Z; min_leaf : Z }.

(** creterion.py:50-51. Python float division by zero raises. *)
Definition node_gain (lam g h : Qc) : res Qc :=
  if decide ((h + lam)%Qc = zq 0) then Err ZeroDivisionError else Ok (g * g / (h + lam))%Qc.

(** creterion.py:53-54 *)
Definition node_weight (lam g h : Qc) : res Qc :=
  if decide ((lam + h)%Qc = zq 0) then Err ZeroDivisionError else Ok (- g / (lam + h))%Qc.

(** creterion.py:42-48, splitter.py:136-139 *)
Definition split_gain (lam g h gl hl gr hr : Qc) : res Qc :=
  a ← node_gain lam gl hl; b ← node_gain lam gr hr; c ← node_gain lam g h; Ok (a + b - c)%Qc.

(** node.py:47-55 SplitInfo. [V] is the type of the sums, [E] of the gain. A missing value is [None]: Python's None, and for
    the placeholder of hetero_decision_tree_host.py:158 the ids -1 and the default int-0 sums, which cannot be decrypted. *)
Record splitinfo (V E : Type) : Type := SInfo {
  si_site : site; si_fid : option nat; si_bid : option nat; si_grad : option V; si_hess : option V; si_gain : option E }.
Arguments SInfo {V E}. Arguments si_site {V E}. Arguments si_fid {V E}. Arguments si_bid {V E}.
Arguments si_grad {V E}. Arguments si_hess {V E}. Arguments si_gain {V E}.

Section Split.
  Context (P : sparams).

  (** The loop variables best_gain and (best_fid, best_bid, best_sum_grad_l, best_sum_hess_l), the last four set together. *)
  Record best : Type := Best { b_gain : Qc; b_at : option (nat * nat * (Qc * Qc)) }.

  (** splitter.py:51-69: one bin of feature [fid] whose last bin is [tot]. *)
  Definition guest_bin (fid : nat) (tot : trip Qc) (b : best) (bt : nat * trip Qc) : res best :=
    let t := bt.2 in
    let gr := (tg tot - tg t)%Qc in
    let hr := (th tot - th t)%Qc in
    let cr := (tc tot - tc t)%Z in
    if (min_leaf P <=? tc t)%Z && (min_leaf P <=? cr)%Z then
      gain ← split_gain (reg_lambda P) (tg tot) (th tot) (tg t) (th t) gr hr;
      if qltb (min_impurity P) gain && qltb (b_gain b) gain
      then Ok (Best gain (Some (fid, bt.1, (tg t, th t)))) else Ok b
    else Ok b.

  (** splitter.py:38-69: the features from [fid] on; too few rows break out of the loop (48-49). *)
  Fixpoint guest_features (valid : list bool) (fid : nat) (feats : list (list (trip Qc))) (b : best) : res best :=
    match feats with
    | [] => Ok b
    | bins :: feats' =>
        v ← list_index valid fid;
        if negb v then guest_features valid (S fid) feats' b
        else match last bins with
             | None => guest_features valid (S fid) feats' b
             | Some tot =>
                 if (tc tot <? min_sample P)%Z then Ok b
                 else b' ← foldM (guest_bin fid tot) b (combine (seq 0 (length bins)) bins);
                      guest_features valid (S fid) feats' b'
             end
    end.

  (** splitter.py:32-74 find_split_single_histogram_guest *)
  Definition find_split_guest (valid : list bool) (h : list (list (trip Qc))) : res (splitinfo Qc Qc) :=
    b ← guest_features valid 0 h (Best (min_impurity P - FLOAT_ZERO)%Qc None);
    Ok (match b_at b with
        | Some (fid, bid, (g, w)) => SInfo GuestSite (Some fid) (Some bid) (Some g) (Some w) (Some (b_gain b))
        | None => SInfo GuestSite None None None None (Some (b_gain b))
        end).

  (** splitter.py:76-83 find_split: node by node; the table is a list keyed by position. *)
  Definition find_split (valid : list bool) (hs : hist Qc) : res (list (splitinfo Qc Qc)) := mapR (find_split_guest valid) hs.

  Section Host.
    Context {C E : Type}.

    (** splitter.py:88-111: the candidates of the features from [fid] on. node_grad_hess holds the same sums as the
        candidates, see [cand_sums]. *)
    Fixpoint host_features (valid : list bool) (sn : site) (fid : nat) (feats : list (list (trip C))) : res (list (splitinfo C E)) :=
      match feats with
      | [] => Ok []
      | bins :: feats' =>
          v ← list_index valid fid;
          if negb v then host_features valid sn (S fid) feats'
          else match last bins with
               | None => host_features valid sn (S fid) feats'
               | Some tot =>
                   if (tc tot <? min_sample P)%Z then Ok []
                   else
                     rest ← host_features valid sn (S fid) feats';
                     Ok (map (fun bt => SInfo sn (Some fid) (Some bt.1) (Some (tg bt.2)) (Some (th bt.2)) None)
                           (List.filter (fun bt => (min_leaf P <=? tc bt.2)%Z && (min_leaf P <=? tc tot - tc bt.2)%Z)
                              (combine (seq 0 (length bins)) bins)) ++ rest)
               end
      end.

    (** splitter.py:85-113 find_split_single_histogram_host: the candidates (node_splitinfo) and their encrypted sums
        (node_grad_hess), appended in step at 110-111. *)
    Definition cand_sums (l : list (splitinfo C E)) : list (option C * option C) := map (fun s => (si_grad s, si_hess s)) l.
    Definition find_split_host1 (valid : list bool) (sn : site) (h : list (list (trip C)))
      : res (list (splitinfo C E) * list (option C * option C)) :=
      l ← host_features valid sn 0 h; Ok (l, cand_sums l).

    (** splitter.py:115-128 find_split_host *)
    Definition find_split_host (valid : list bool) (sn : site) (hs : hist C) : res (list (list (splitinfo C E) * list (option C * option C))) :=
      mapR (find_split_host1 valid sn) hs.

    Context (dec : C -> res Qc) (gdec : E -> res Qc).

    (** hetero_decision_tree_guest.py:151-152: decrypting something that is no ciphertext raises. *)
    Definition dec_opt {X} (d : X -> res Qc) (x : option X) : res Qc := match x with Some x => d x | None => Err TypeError end.

    (** hetero_decision_tree_guest.py:208-219: one candidate. The state is (best_gain, best_idx), -1 being [None]. *)
    Definition host_pick (g h : Qc) (st : Qc * option nat) (ic : nat * (option C * option C)) : res (Qc * option nat) :=
      gl ← dec_opt dec ic.2.1; hl ← dec_opt dec ic.2.2;
      gain ← split_gain (reg_lambda P) g h gl hl (g - gl)%Qc (h - hl)%Qc;
      if qltb (min_impurity P) gain && qltb st.1 gain then Ok (gain, Some ic.1) else Ok st.

    (** hetero_decision_tree_guest.py:201-222 find_host_split; [enc] is the encryption of the best gain (line 221). *)
    Definition find_host_split (enc : Qc -> res E) (g h : Qc) (cands : list (option C * option C)) : res (option nat * E) :=
      st ← foldM (host_pick g h) ((min_impurity P - FLOAT_ZERO)%Qc, None) (combine (seq 0 (length cands)) cands);
      e ← enc st.1;
      Ok (st.2, e).

    (** hetero_decision_tree_host.py:145-160, one node: the chosen candidate with its bin hidden, or the placeholder; the
        second component is the entry (node id, bin) added to split_maskdict. *)
    Definition final_split (sn : site) (nid : nat) (cands : list (splitinfo C E)) (bg : option nat * E)
      : res (splitinfo C E * option (nat * nat)) :=
      match bg.1 with
      | None => Ok (SInfo sn None None None None (Some bg.2), None)
      | Some i =>
          s ← list_index cands i;
          if decide (si_site s = sn) then
            match si_fid s, si_bid s with
            | Some f, Some b => Ok (SInfo (si_site s) (Some f) None (si_grad s) (si_hess s) (Some bg.2), Some (nid, b))
            | _, _ => Err AssertionError
            end
          else Err AssertionError
      end.

    (** hetero_decision_tree_guest.py:417-421 *)
    Definition best_host_step (st : Qc * nat) (is : nat * splitinfo C E) : res (Qc * nat) :=
      x ← dec_opt gdec (si_gain is.2);
      if qltb st.1 x then Ok (x, is.1) else Ok st.

    (** hetero_decision_tree_guest.py:414-431 find_best_split_guest_and_host: index 0 is the guest's split, the hosts follow. *)
    Definition find_best_split (guest : splitinfo Qc Qc) (hosts : list (splitinfo C E)) : res (splitinfo Qc Qc) :=
      s1 ← list_index hosts 0;
      x1 ← dec_opt gdec (si_gain s1);
      st ← foldM best_host_step (x1, 0) (combine (seq 0 (length hosts)) hosts);
      match si_gain guest with
      | None => Err TypeError
      | Some gg =>
          if qleb (st.1 - FLOAT_ZERO)%Qc gg then Ok guest
          else
            s ← list_index hosts st.2;
            sg ← dec_opt dec (si_grad s); sh ← dec_opt dec (si_hess s);
            Ok (SInfo (si_site s) (si_fid s) (si_bid s) (Some sg) (Some sh) (Some st.1))
      end.

    (** hetero_decision_tree_guest.py:433-447 merge_splitinfo: node i against entry i of every host's list. *)
    Definition merge_splitinfo (guest : list (splitinfo Qc Qc)) (hosts : list (list (splitinfo C E))) : res (list (splitinfo Qc Qc)) :=
      rows ← mapR (fun ig => row ← mapR (fun hl => list_index hl ig.1) hosts; Ok (ig.2, row)) (combine (seq 0 (length guest)) guest);
      mapR (fun r => find_best_split r.1 r.2) rows.
  End Host.
End Split.
