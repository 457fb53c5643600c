(** Specification for the COBS properties; mentions no model helper. *)
From Verif Require Import Base.

(** [src] contains a maximal run of nonzero bytes (at its start or right after a zero) whose length is a positive
    multiple of 254 and which is followed by a zero. *)
Definition swallows_zero (src : list N) : Prop :=
  exists pre run post k,
    src = pre ++ run ++ 0 :: post /\
    (pre = [] \/ exists p, pre = p ++ [0]) /\
    Forall (fun b => b <> 0) run /\
    length run = (254 * S k)%nat.
