(** The columns of all parties laid side by side, and when a federated run and a run on the joined columns must agree. *)
From Verif Require Export TreeMain.
Local Open Scope nat_scope.

Section Join.
  Context {K : Type}.

  (** Column [f] of the joined table. *)
  Fixpoint bin_at (ps : list (party K)) (k : K) (f : nat) : nat :=
    match ps with
    | [] => 0
    | p :: ps' => if f <? length (p_nb p) then p_bin p k f else bin_at ps' k (f - length (p_nb p))
    end.
  (** Where the columns of party [i] start. *)
  Fixpoint offset (ps : list (party K)) (i : nat) : nat :=
    match ps, i with
    | p :: ps', Datatypes.S i' => length (p_nb p) + offset ps' i'
    | _, _ => 0
    end.
  (** One party with the columns of all, the guest's first, then the hosts' in order. *)
  Definition join_parties (guest : party K) (hosts : list (party K)) : party K :=
    Party (bin_at (guest :: hosts)) (concat (map p_nb (guest :: hosts))) (concat (map p_valid (guest :: hosts))) (p_min_sample guest) (p_min_leaf guest).

  (** The same split on the joined columns, and the same tree. *)
  Definition position (own : option nat) : nat := match own with None => 0 | Some i => Datatypes.S i end.
  Definition moved_choice (ps : list (party K)) (c : choice) : choice := Choice None (offset ps (position (ch_own c)) + ch_fid c) (ch_bin c) (ch_g c) (ch_h c).
  Fixpoint moved_tree (ps : list (party K)) (t : dtree) : dtree :=
    match t with
    | TLeaf w G H => TLeaf w G H
    | TSplit w G H c x l r => TSplit w G H (moved_choice ps c) x (moved_tree ps l) (moved_tree ps r)
    end.
End Join.

(** The largest of some gains. *)
Definition largest (l : list Qc) (m : Qc) : Prop := m ∈ l /\ forall y, y ∈ l -> (y <= m)%Qc.

Section Clear.
  Context {K : Type} (U : list K) (lam mi : Qc) (guest : party K) (hosts : list (party K)) (vg vh : K -> Qc).
  (** The gains of all splits of [S] that a party may propose. *)
  Definition gains_of (p : party K) (S : K -> bool) : list Qc := map (fun fb => gain_at U lam vg vh S p fb.1 fb.2) (cands U p S).
  (** At no node above the last level does the best host beat the guest's best split by so little (FLOAT_ZERO or less) that the
      federated program stays with the guest. *)
  Fixpoint clear_cut (d : nat) (t : dtree) (S : K -> bool) : Prop :=
    match d with
    | 0 => True
    | Datatypes.S d' =>
        (forall m x, largest (gains_of guest S) m -> largest (concat (map (fun p => gains_of p S) hosts)) x -> (mi < m)%Qc -> (m < x)%Qc -> (m + FLOAT_ZERO < x)%Qc) /\
        match t with
        | TLeaf _ _ _ => True
        | TSplit _ _ _ c _ l r => forall p, owner guest hosts (ch_own c) = Some p ->
            clear_cut d' l (left_of p S (ch_fid c) (ch_bin c)) /\ clear_cut d' r (right_of p S (ch_fid c) (ch_bin c))
        end
    end.
End Clear.
