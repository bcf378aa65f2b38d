(** Model of the array functions of ml/secureprotol/encrypt.py (class Encrypt). *)
From Verif Require Export PaillierModel DTableModel.
Local Open Scope nat_scope.

(** A numpy array: its shape and its entries in row-major order. *)
Definition arr (V : Type) : Type := list nat * list V.
Definition prod_shape (s : list nat) : nat := foldr Nat.mul 1 s.
(** The rows of an array of shape n :: s, each of size [k]. *)
Fixpoint chunks {V} (n k : nat) (l : list V) : list (list V) := match n with 0 => [] | S n' => take k l :: chunks n' k (drop k l) end.
(** numpy.array(rows) for rows of one shape; no rows give an array of shape (0,). *)
Definition np_stack {V} (rows : list (arr V)) : arr V :=
  match rows with [] => ([0], []) | r :: _ => (length rows :: r.1, concat (map snd rows)) end.
(** What recursive_encrypt and recursive_decrypt are called with; a list is turned into an array first (lines 82-83, 104-105). *)
Inductive input (K V : Type) : Type := InArray (a : arr V) | InTable (t : dtable K V).
Arguments InArray {K V}. Arguments InTable {K V}.

Section Array.
  Context {K V : Type}.
  (** self.encrypt or self.decrypt, and the conversion of one entry by dtype=np.float64. *)
  Context (f : V -> res V) (to_float : V -> res V).
  (** ml/secureprotol/encrypt.py:56-62 encrypt_list, decrypt_list *)
  Definition each (values : list V) : res (list V) := mapR f values.
  (** ml/secureprotol/encrypt.py:94, 116 np.array(rows, dtype=np.float64) *)
  Definition np_float (rows : list (arr V)) : res (arr V) := let a := np_stack rows in d ← mapR to_float a.2; Ok (a.1, d).
  (** ml/secureprotol/encrypt.py:85-94 and 107-116: a 1-dimensional array becomes one row; an array without dimensions cannot be
      iterated over. *)
  Fixpoint recursive (s : list nat) (data : list V) : res (arr V) :=
    match s with
    | [] => Err TypeError
    | [n] => r ← each data; np_float [([n], r)]
    | n :: s1 =>
        rows ← mapR (fun row => match s1 with [m] => r ← each row; Ok ([m], r) | _ => recursive s1 row end) (chunks n (prod_shape s1) data);
        np_float rows
    end.
  (** ml/secureprotol/encrypt.py:74-94; the values of a table become a list. *)
  Definition recursive_decrypt (x : input K V) : res (arr V) :=
    match x with InArray a => recursive a.1 a.2 | InTable t => let l := dt_values t in recursive [length l] l end.
  (** ml/secureprotol/encrypt.py:96-116; numpy.array(dict.values()) (lines 100-101) is an array without dimensions. *)
  Definition recursive_encrypt (x : input K V) : res (arr V) :=
    match x with InArray a => recursive a.1 a.2 | InTable t => recursive [] [] end.
End Array.

(** Conversion of an entry to float64: a Python number is rounded, other objects raise TypeError (an encrypted number has no
    __float__, ml/secureprotol/fate_paillier.py:198-340). Numbers beyond the range of doubles are not modelled. *)
Definition np_float64 (c : cell) : res cell := match c with CNum v => Ok (CNum (PyFloat (fround (num v)))) | CEnc _ => Err TypeError end.
(** ml/secureprotol/encrypt.py:185-195 encrypt and decrypt with a key; [fresh] gives the random number. *)
Definition paillier_encrypt (n : Z) (fresh : cell -> Z) (c : cell) : res cell :=
  match c with CNum v => x ← pk_encrypt n v None None (fresh c); Ok (CEnc x) | CEnc _ => Err TypeError end.
Definition paillier_decrypt (sk : privkey) (c : cell) : res cell := v ← sk_decrypt sk c; Ok (CNum v).
