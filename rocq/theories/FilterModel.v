(** Model of canadensis_filter_config/src/lib.rs: CAN acceptance filters and their reduction. *)
From Verif Require Import Base.

(** lib.rs:48,51 *)
Definition EXTENDED_ID_MASK : N := 0x1fffffff.
Definition VALID_BIT : N := 0x80000000.

(** lib.rs:58-66 [Filter] *)
Record filter_t := Filter { fl_mask : N; fl_idv : N }.

(** lib.rs:73-78 [Filter::new] *)
Definition filter_new (mask id : N) : filter_t :=
  Filter (N.land mask EXTENDED_ID_MASK) (N.lor (N.land id EXTENDED_ID_MASK) VALID_BIT).
(** lib.rs:82-84 [Filter::exact_match] *)
Definition filter_exact (id : N) : filter_t := filter_new EXTENDED_ID_MASK id.
(** lib.rs:93-95 [Filter::id] *)
Definition filter_id (f : filter_t) : N := N.land (fl_idv f) EXTENDED_ID_MASK.
(** lib.rs:98-100 [Filter::is_valid] *)
Definition is_valid (f : filter_t) : bool := negb (N.eqb (N.land (fl_idv f) VALID_BIT) 0).
(** lib.rs:102-105 [Filter::invalidate] *)
Definition invalid : filter_t := Filter 0 0.
(** [u32::count_ones] *)
Fixpoint pos_ones (p : positive) : nat :=
  match p with xH => 1%nat | xO q => pos_ones q | xI q => S (pos_ones q) end.
Definition count_ones (n : N) : nat := match n with N0 => O | Npos p => pos_ones p end.
(** lib.rs:110-112 [Filter::rank] *)
Definition rank (f : filter_t) : nat := count_ones (fl_mask f).
(** lib.rs:115-117 [Filter::accepts] *)
Definition accepts (f : filter_t) (id : N) : bool :=
  N.eqb (N.land (fl_mask f) id) (N.land (fl_mask f) (filter_id f)).

(** lib.rs:162-164 [merge_masks]; [!x] on u32 is [lxor x 0xffffffff] *)
Definition merge_masks (a b : filter_t) : N :=
  N.land (N.land (fl_mask a) (fl_mask b)) (N.lxor (N.lxor (filter_id a) (filter_id b)) 0xffffffff).
(** lib.rs:168-171 [merge] *)
Definition merge (a b : filter_t) : filter_t :=
  let mask := merge_masks a b in filter_new mask (N.land (filter_id a) mask).

(** slice access and assignment (in range wherever the code uses them) *)
Definition fget (l : list filter_t) (i : nat) : filter_t := nth i l invalid.
Fixpoint fset (l : list filter_t) (i : nat) (f : filter_t) : list filter_t :=
  match l, i with
  | [], _ => []
  | _ :: r, O => f :: r
  | x :: r, S i' => x :: fset r i' f
  end.

(** lib.rs:229-237, the body of the two nested loops; the state is (max_rank, max_rank_indices) *)
Definition pick_body (l : list filter_t) (st : nat * (nat * nat)) (ij : nat * nat) : nat * (nat * nat) :=
  let f1 := fget l (fst ij) in
  let f2 := fget l (snd ij) in
  if is_valid f1 && is_valid f2 then
    let r := rank (merge f1 f2) in
    if (fst st <=? r)%nat then (r, ij) else st
  else st.
(** lib.rs:227-228, the index pairs in loop order *)
Definition index_pairs (n : nat) : list (nat * nat) :=
  flat_map (fun i => map (fun j => (i, j)) (seq (S i) (n - S i))) (seq 0 n).
(** lib.rs:225-239 *)
Definition pick (l : list filter_t) : nat * nat :=
  snd (fold_left (pick_body l) (index_pairs (length l)) (O, (O, O))).
(** lib.rs:241-245 *)
Definition merge_step (l : list filter_t) : list filter_t :=
  let '(i, j) := pick l in
  fset (fset l i (merge (fget l i) (fget l j))) j invalid.
(** [iter().filter(is_valid).count()] *)
Definition valid_count (l : list filter_t) : nat := length (filter is_valid l).
(** lib.rs:223-254, the loop: [k] further merges, after which [valid] has come down to the limit.
    The [debug_assert_eq!] at 247-253 is checked ([Panic] when it fails, as in a debug build). *)
Fixpoint merge_loop (k : nat) (valid : nat) (l : list filter_t) : res (list filter_t) :=
  match k with
  | O => Ok l
  | S k' =>
      let l' := merge_step l in
      if (valid - 1 =? valid_count l')%nat then merge_loop k' (valid - 1) l' else Panic
  end.
(** lib.rs:220-255 [merge_filters] *)
Definition merge_filters (l : list filter_t) (max : nat) : res (list filter_t) :=
  merge_loop (length l - max) (length l) l.

(** lib.rs:264-268: the inner loop of [compact], moving element [j] towards the front *)
Fixpoint sink (j : nat) (l : list filter_t) : list filter_t :=
  match j with
  | O => l
  | S j' =>
      if negb (is_valid (fget l j')) && is_valid (fget l j)
      then sink j' (fset (fset l j' (fget l j)) j (fget l j'))
      else l
  end.
(** lib.rs:258-270 [compact] *)
Definition compact (l : list filter_t) : list filter_t :=
  fold_left (fun acc i => sink i acc) (seq 1 (length l - 1)) l.

(** lib.rs:201-204 *)
Fixpoint first_invalid (l : list filter_t) : nat :=
  match l with
  | [] => O
  | f :: r => if is_valid f then S (first_invalid r) else O
  end.
(** lib.rs:180-217 [optimize]; the debug checks at 191-197 and 207-212 are kept *)
Definition optimize (l : list filter_t) (max : nat) : res (list filter_t) :=
  if (max =? 0)%nat then Ok []
  else
    match merge_filters l max with
    | Panic => Panic
    | Ok m =>
        if (valid_count m <=? max)%nat then
          let c := compact m in
          let v := firstn (first_invalid c) c in
          let rest := skipn (first_invalid c) c in
          if forallb is_valid v && negb (existsb is_valid rest) then Ok v else Panic
        else Panic
    end.
