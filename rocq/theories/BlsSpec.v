(** Specification of bit length sets: the set of lengths that an expression denotes. *)
From Coq Require Import Sorted.
From Verif Require Import Base BlsModel.

Definition total (l : list N) : N := fold_right N.add 0 l.

(** Zero-padding of [u] to a multiple of [a]. *)
Definition padded (a u v : N) : Prop := u <= v /\ v < u + a /\ v mod a = 0.

Fixpoint den (o : operator) (v : N) {struct o} : Prop :=
  match o with
  | Leaf values => In v values
  | Padding child a => exists u, den child u /\ padded a u v
  | Concatenate children =>
      exists vs, (fix each (cs : list operator) (vs : list N) : Prop :=
                    match cs, vs with [], [] => True | c :: cs', x :: vs' => den c x /\ each cs' vs' | _, _ => False end) children vs /\
                 v = total vs
  | Repeat child n => exists vs, N.of_nat (length vs) = n /\ Forall (den child) vs /\ v = total vs
  | RangeRepeat child n => exists vs, N.of_nat (length vs) <= n /\ Forall (den child) vs /\ v = total vs
  | Union children => (fix some (cs : list operator) : Prop := match cs with [] => False | c :: cs' => den c v \/ some cs' end) children
  end.

(** Sets as the [BTreeSet] holds them. *)
Definition is_set (l : list N) : Prop := StronglySorted N.lt l.

(** Every expression that the public constructors build, with positive alignments, and all of whose parts have lengths below
    2^64. *)
Fixpoint bls_ok (o : operator) : Prop :=
  (forall v, den o v -> v < 2 ^ 64) /\
  match o with
  | Leaf values => is_set values /\ values <> []
  | Padding child a => bls_ok child /\ 0 < a < 2 ^ 32
  | Concatenate children | Union children =>
      children <> [] /\ (fix all (cs : list operator) : Prop := match cs with [] => True | c :: cs' => bls_ok c /\ all cs' end) children
  | Repeat child n | RangeRepeat child n => bls_ok child /\ n < 2 ^ 64
  end.

(** For remainders: the divisor and the numbers of parts are such that sums of remainders fit into 64 bits. *)
Fixpoint bls_small (o : operator) : Prop :=
  match o with
  | Leaf _ => True
  | Padding child _ => bls_small child
  | Concatenate children | Union children =>
      N.of_nat (length children) < 2 ^ 32 /\ (fix all (cs : list operator) : Prop := match cs with [] => True | c :: cs' => bls_small c /\ all cs' end) children
  | Repeat child _ | RangeRepeat child _ => bls_small child
  end.

(** Every alignment in the expression divides [d] or is a multiple of [d]. *)
Fixpoint compatible (d : N) (o : operator) : Prop :=
  match o with
  | Leaf _ => True
  | Padding child a => compatible d child /\ (N.divide a d \/ N.divide d a)
  | Concatenate children | Union children =>
      (fix all (cs : list operator) : Prop := match cs with [] => True | c :: cs' => compatible d c /\ all cs' end) children
  | Repeat child _ | RangeRepeat child _ => compatible d child
  end.
