(** What it means that a list of nodes, with the parties' split values, is a given tree. *)
From Verif Require Export TreeModel TreeSpec.
Local Open Scope nat_scope.

(** [name own] is the site name of an owner; [M own id f b] says that the owner remembers bin [b] of feature [f] for node
    [id]. Children come after their parent in the list. *)
Inductive repr (name : option nat -> site) (T : list node) (M : option nat -> nat -> nat -> nat -> Prop) : nat -> dtree -> Prop :=
| repr_leaf id w G H : T !! id = Some (Node id GuestSite None w true G H None None) -> repr name T M id (TLeaf w G H)
| repr_split id w G H c g l r li ri :
    T !! id = Some (Node id (name (ch_own c)) (Some (ch_fid c)) w false G H (Some li) (Some ri)) ->
    M (ch_own c) id (ch_fid c) (ch_bin c) -> id < li -> id < ri -> repr name T M li l -> repr name T M ri r ->
    repr name T M id (TSplit w G H c g l r).

(** Children of a node, in the order of their ids. *)
Definition children (nd : node) : list nat :=
  match n_left nd, n_right nd with Some l, Some r => [l; r] | Some l, None => [l] | None, Some r => [r] | None, None => [] end.

Fixpoint tsize (t : dtree) : nat := match t with TLeaf _ _ _ => 1 | TSplit _ _ _ _ _ l r => S (tsize l + tsize r) end.
Fixpoint tdepth (t : dtree) : nat := match t with TLeaf _ _ _ => 0 | TSplit _ _ _ _ _ l r => S (Nat.max (tdepth l) (tdepth r)) end.

(** What the splits of a tree on one feature of one party add to its importance. *)
Fixpoint gains (name : option nat -> site) (per_split : bool) (key : site * option nat) (t : dtree) : list Qc :=
  match t with
  | TLeaf _ _ _ => []
  | TSplit _ _ _ c g l r =>
      (if decide ((name (ch_own c), Some (ch_fid c)) = key) then [if per_split then zq 1 else g] else []) ++
      gains name per_split key l ++ gains name per_split key r
  end.
(** An entry of a dictionary of sums after adding the numbers of a list: the entry appears with the first number. *)
Definition add_all (o : option Qc) (l : list Qc) : option Qc :=
  match l with [] => o | _ => Some (match o with Some x => x | None => zq 0 end + qsum l)%Qc end.

(** ** Sums and weights of a tree *)
Definition tG (t : dtree) : Qc := match t with TLeaf _ G _ => G | TSplit _ G _ _ _ _ _ => G end.
Definition tH (t : dtree) : Qc := match t with TLeaf _ _ H => H | TSplit _ _ H _ _ _ _ => H end.
Definition tw (t : dtree) : Qc := match t with TLeaf w _ _ => w | TSplit w _ _ _ _ _ _ => w end.
(** Every weight is the optimal one for its sums, and the sums of two children add up to those of the parent. *)
Definition weight_ok (lam : Qc) (t : dtree) : Prop := (tH t + lam <> zq 0)%Qc /\ (tw t * (tH t + lam) = - tG t)%Qc.
Fixpoint consistent (lam : Qc) (t : dtree) : Prop :=
  weight_ok lam t /\
  match t with
  | TLeaf _ _ _ => True
  | TSplit _ _ _ _ _ l r => (tG t = tG l + tG r)%Qc /\ (tH t = tH l + tH r)%Qc /\ consistent lam l /\ consistent lam r
  end.

(** The sums of every node are within [D] of the true sums over the rows that reach it. *)
Fixpoint near {K} (U : list K) (guest : party K) (hosts : list (party K)) (vg vh : K -> Qc) (D : Qc) (t : dtree) (S : K -> bool) : Prop :=
  (qabs (tG t - sum_if S vg U) <= D)%Qc /\ (qabs (tH t - sum_if S vh U) <= D)%Qc /\
  match t with
  | TLeaf _ _ _ => True
  | TSplit _ _ _ c _ l r => near U guest hosts vg vh D l (goes guest hosts left_of S c) /\ near U guest hosts vg vh D r (goes guest hosts right_of S c)
  end.

(** A list of nodes that forms a tree with root 0: entry k has id k, the children lists are the ids 1, 2, ... in order (so
    every entry but the root is the child of exactly one node), children come later than their parent, sums add up. *)
Record well_formed (lam : Qc) (T : list node) : Prop := {
  wf_ids : forall j nd, T !! j = Some nd -> n_id nd = j;
  wf_children : flat_map children T = seq 1 (length T - 1);
  wf_weight : forall nd, nd ∈ T -> (n_hess nd + lam <> zq 0)%Qc /\ (n_weight nd * (n_hess nd + lam) = - n_grad nd)%Qc;
  wf_leaf : forall nd, nd ∈ T -> n_leaf nd = true -> n_left nd = None /\ n_right nd = None;
  wf_inner : forall nd, nd ∈ T -> n_leaf nd = false -> exists l r a b, n_left nd = Some l /\ n_right nd = Some r /\ n_id nd < l /\ n_id nd < r /\
    T !! l = Some a /\ T !! r = Some b /\ (n_grad nd = n_grad a + n_grad b)%Qc /\ (n_hess nd = n_hess a + n_hess b)%Qc }.
