(** Model of ml/secureprotol/encrypt_mode.py (class EncryptModeCalculator). *)
From Verif Require Export PyBase QcBase DTableModel.

(** ml/utils/consts.py FLOAT_ZERO = 1e-6. *)
Definition FLOAT_ZERO : Qc := Q2Qc (1 # 1000000).

(** A table value: an ndarray / iterable of numbers, or a single number. *)
Inductive row (A : Type) := RSeq (l : list A) | RVal (a : A).
Arguments RSeq {A} l. Arguments RVal {A} a.

(** Any mode string other than 'strict' and 'balance' takes the branch of 'fast'. *)
Inductive em_mode := MStrict | MFast | MBalance.

Section EncryptMode.
  Context {K P C : Type} `{EqDecision K}.
  (** The encrypter: [enc call key position value] is encrypter.encrypt(value); call, key and position name
      the random draw, so encryption is an arbitrary function of fresh randomness. [sub] is plaintext
      subtraction and [addc d c] is [d + c] for a plaintext d and a ciphertext c. *)
  Context (enc : nat -> K -> nat -> P -> res C) (sub : P -> P -> P) (addc : P -> C -> res C).

  Fixpoint enc_seq (call : nat) (k : K) (i : nat) (l : list P) : res (list C) :=
    match l with
    | [] => Ok []
    | v :: l' => c ← enc call k i v; cs ← enc_seq call k (S i) l'; Ok (c :: cs)
    end.

  (** encrypt_mode.py:47-53 encrypt_row *)
  Definition encrypt_row (call : nat) (k : K) (r : row P) : res (row C) :=
    match r with
    | RSeq l => cs ← enc_seq call k 0 l; Ok (RSeq cs)
    | RVal v => c ← enc call k 0 v; Ok (RVal c)
    end.

  (** encrypt_mode.py:98-121 get_differance. A sequence against a single number (the row of a key changes its
      shape between calls) is not represented and stands for TypeError. *)
  Definition get_difference (new old : row P) : res (row P) :=
    match new, old with
    | RSeq l, RSeq l' => Ok (RSeq (zip_with sub l l'))
    | RVal v, RVal v' => Ok (RVal (sub v v'))
    | _, _ => Err TypeError
    end.

  (** encrypt_mode.py:123-144 add_differance *)
  Definition add_difference (d : row P) (e : row C) : res (row C) :=
    match d, e with
    | RSeq l, RSeq l' => cs ← mapR (fun p => addc p.1 p.2) (zip l l'); Ok (RSeq cs)
    | RVal v, RVal c => x ← addc v c; Ok (RVal x)
    | _, _ => Err TypeError
    end.

  (** encrypt_mode.py:40-45 attributes prev_data and prev_encrypted_data (both None or both set). *)
  Definition em_state : Type := option (dtable K (row P) * dtable K (row C)).

  (** encrypt_mode.py:58-96 encrypt. [u] is the number drawn by gen_random_number. The calls to rubbish_clear
      only try to free tables and have no effect (data_overview.py:28-41). *)
  Definition em_encrypt (mode : em_mode) (rate : Qc) (call : nat) (u : Qc) (st : em_state)
      (input : dtable K (row P)) : res (em_state * dtable K (row C)) :=
    new_data ←
      (match st with
       | Some (prev, prev_enc) =>
           if match mode with
              | MStrict => true
              | MBalance => qleb u (rate + FLOAT_ZERO)%Qc
              | MFast => false
              end
           then dt_map (encrypt_row call) input
           else diff ← dt_join get_difference input prev; dt_join add_difference diff prev_enc
       | None => dt_map (encrypt_row call) input
       end);
    prev' ← dt_mapValues Ok input;
    prev_enc' ← dt_mapValues Ok new_data;
    Ok (Some (prev', prev_enc'), new_data).

  (** A history of calls on one calculator object, starting with [call]. *)
  Fixpoint em_run (mode : em_mode) (rate : Qc) (call : nat) (st : em_state)
      (hist : list (Qc * dtable K (row P))) : res (list (dtable K (row C))) :=
    match hist with
    | [] => Ok []
    | (u, t) :: hist' =>
        '(st', out) ← em_encrypt mode rate call u st t;
        outs ← em_run mode rate (S call) st' hist';
        Ok (out :: outs)
    end.
End EncryptMode.
