(** What the arguments and the output of the filter tool mean (C135) *)
From Verif Require Import Base.
Open Scope N_scope.

(** A character and the digit it stands for *)
Inductive digit : N -> N -> Prop :=
| digit_figure : forall d, d <= 9 -> digit (48 + d) d
| digit_small : forall d, 10 <= d <= 35 -> digit (97 + (d - 10)) d
| digit_capital : forall d, 10 <= d <= 35 -> digit (65 + (d - 10)) d.
(** The text is a numeral with value [n]: each character is a digit, the first one has the largest weight *)
Definition numeral (base : N) (t : list N) (n : N) : Prop :=
  exists ds, Forall2 (fun c d => digit c d /\ d < base) t ds /\ n = fold_left (fun a d => a * base + d) ds 0.
(** A numeral that is not empty, possibly behind a plus sign, of a number below [limit] *)
Definition unsigned (base limit : N) (t : list N) (n : N) : Prop :=
  exists sign ds, (sign = [] \/ sign = [43]) /\ t = sign ++ ds /\ ds <> [] /\ numeral base ds n /\ n < limit.

(** Arguments: a number of filters, and identifiers in hexadecimal with the prefix 0x *)
Inductive arguments : list (list N) -> N -> list N -> Prop :=
| Arguments : forall m max ts ids, unsigned 10 (2 ^ 64) m max ->
    Forall2 (fun t id => exists ds, t = [48; 120] ++ ds /\ unsigned 16 (2 ^ 32) ds id /\ id < 2 ^ 29) ts ids -> arguments (m :: ts) max ids.

(** A line for a filter: 0x, eight digits of the identifier, three spaces, 0x, eight digits of the mask *)
Definition line (id mask : N) (t : list N) : Prop :=
  exists a b, t = [48; 120] ++ a ++ [32; 32; 32; 48; 120] ++ b ++ [10] /\ length a = 8%nat /\ length b = 8%nat /\ numeral 16 a id /\ numeral 16 b mask.
(** "ID         | Mask", then the lines *)
Definition table (filters : list (N * N)) (t : list N) : Prop :=
  exists ls, t = [73; 68; 32; 32; 32; 32; 32; 32; 32; 32; 32; 124; 32; 77; 97; 115; 107; 10] ++ concat ls /\ Forall2 (fun f l => line (fst f) (snd f) l) filters ls.
