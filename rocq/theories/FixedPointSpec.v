(** What a fixed-point number means, independently of the encode/decode code. *)
From Verif Require Export PyBase QcBase FixedPointModel.
Local Open Scope Z_scope.

(** [x] stores the signed integer [m], at most max_int in magnitude, as a residue modulo n. *)
Definition fp_mant (x : fp) (m : Z) : Prop :=
  0 <= fp_max x /\ 2 * fp_max x < fp_n x /\ Z.abs m <= fp_max x /\ fp_enc x = m mod fp_n x.

(** [x] is an encoding of the rational [q]: q = m * 16^(-exponent). *)
Definition fp_holds (x : fp) (q : Qc) : Prop :=
  exists m, fp_mant x m /\ q = (zq m * p2 (- (4 * fp_exp x)))%Qc.

(** Rationals with at most 53 significant bits: every finite double is one. *)
Definition is_double (q : Qc) : Prop := exists k t, Z.abs k < 2 ^ 53 /\ q = (zq k * p2 t)%Qc.

(** The comparison a Python operator denotes. *)
Definition cmp_means (o : cmp_op) (a b : Qc) : Prop :=
  match o with
  | CLt => (a < b)%Qc | CGt => (b < a)%Qc | CLe => (a <= b)%Qc | CGe => (b <= a)%Qc
  | CEq => a = b | CNe => a <> b
  end.

(** Numbers encoded with the class constants Q and Q//3-1. *)
Definition fp_std (x : fp) : Prop := fp_n x = Qmod /\ fp_max x = Qmax.
