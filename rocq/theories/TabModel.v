(** Model of canadensis_core/src/subscription.rs and session.rs. *)
From Verif Require Import Base CoreModel.

Section Tables.
Context {S : Type}.

(** [iter().position(|(k', _)| k' == k)] *)
Fixpoint position (k : N) (l : list (N * S)) : option nat :=
  match l with
  | [] => None
  | (k', _) :: r => if N.eqb k' k then Some O else option_map Datatypes.S (position k r)
  end.

(** [Vec::swap_remove(i)]: the last element takes the place of element [i] *)
Definition swap_remove (i : nat) (l : list (N * S)) : list (N * S) :=
  if (i + 1 =? length l)%nat then firstn i l
  else firstn i l ++ skipn (length l - 1) l ++ firstn (length l - 2 - i) (skipn (Datatypes.S i) l).

(** [iter().find(|(k', _)| k' == k)] *)
Fixpoint lookup (k : N) (l : list (N * S)) : option S :=
  match l with
  | [] => None
  | (k', s) :: r => if N.eqb k' k then Some s else lookup k r
  end.

(** in-place change of the entry found by [iter_mut().find(..)] *)
Fixpoint update (k : N) (f : S -> S) (l : list (N * S)) : list (N * S) :=
  match l with
  | [] => []
  | (k', s) :: r => if N.eqb k' k then (k', f s) :: r else (k', s) :: update k f r
  end.

(** * subscription.rs *)

(** subscription.rs:99-103 [DynamicSubscriptionManager] *)
Record subs := Subs { sb_msg : list (N * S); sb_req : list (N * S); sb_resp : list (N * S) }.

(** subscription.rs:252-260 [default] *)
Definition subs_empty : subs := Subs [] [] [].

(** subscription.rs:116-128,140-152,164-176: one vector *)
Definition vec_unsub (k : N) (l : list (N * S)) : list (N * S) :=
  match position k l with Some i => swap_remove i l | None => l end.

(** subscription.rs:106-114,130-138,154-162: one vector; [alloc] says whether [try_push] finds memory *)
Definition vec_sub (k : N) (s : S) (alloc : bool) (l : list (N * S)) : bool * list (N * S) :=
  let l' := vec_unsub k l in
  if alloc then (true, l' ++ [(k, s)]) else (false, l').

(** subscription.rs:106-176 for the three port kinds; the result is [is_ok()] *)
Definition subs_subscribe (p : port) (s : S) (alloc : bool) (t : subs) : bool * subs :=
  match p with
  | PMsg k => let '(ok, l) := vec_sub k s alloc (sb_msg t) in (ok, Subs l (sb_req t) (sb_resp t))
  | PReq k => let '(ok, l) := vec_sub k s alloc (sb_req t) in (ok, Subs (sb_msg t) l (sb_resp t))
  | PResp k => let '(ok, l) := vec_sub k s alloc (sb_resp t) in (ok, Subs (sb_msg t) (sb_req t) l)
  end.
Definition subs_unsubscribe (p : port) (t : subs) : subs :=
  match p with
  | PMsg k => Subs (vec_unsub k (sb_msg t)) (sb_req t) (sb_resp t)
  | PReq k => Subs (sb_msg t) (vec_unsub k (sb_req t)) (sb_resp t)
  | PResp k => Subs (sb_msg t) (sb_req t) (vec_unsub k (sb_resp t))
  end.

(** subscription.rs:178-218 [find_*_subscription] *)
Definition subs_find (p : port) (t : subs) : option S :=
  match p with
  | PMsg k => lookup k (sb_msg t)
  | PReq k => lookup k (sb_req t)
  | PResp k => lookup k (sb_resp t)
  end.
(** subscription.rs:178-218 [find_*_subscription_mut] followed by a change [f] *)
Definition subs_update (p : port) (f : S -> S) (t : subs) : subs :=
  match p with
  | PMsg k => Subs (update k f (sb_msg t)) (sb_req t) (sb_resp t)
  | PReq k => Subs (sb_msg t) (update k f (sb_req t)) (sb_resp t)
  | PResp k => Subs (sb_msg t) (sb_req t) (update k f (sb_resp t))
  end.
(** subscription.rs:220-245 [for_each_*_subscription_mut], all three *)
Definition map_snd (f : S -> S) (l : list (N * S)) := map (fun '(k, s) => (k, f s)) l.
Definition subs_map (f : S -> S) (t : subs) : subs :=
  Subs (map_snd f (sb_msg t)) (map_snd f (sb_req t)) (map_snd f (sb_resp t)).
(** subscription.rs:243-249 [subscribers] and [servers] *)
Definition subs_subscribers (t : subs) : list N := map fst (sb_msg t).
Definition subs_servers (t : subs) : list N := map fst (sb_req t).

(** * session.rs *)

(** [heapless::LinearMap::insert] behind session.rs:119-124: replaces, appends, or fails when full *)
Fixpoint has (k : N) (l : list (N * S)) : bool :=
  match l with [] => false | (k', _) :: r => N.eqb k' k || has k r end.
Definition lm_insert (cap : nat) (k : N) (s : S) (l : list (N * S)) : option (list (N * S)) :=
  if has k l then Some (update k (fun _ => s) l)
  else if (length l <? cap)%nat then Some (l ++ [(k, s)]) else None.
(** session.rs:94-96,98-100 *)
Definition lm_get (k : N) (l : list (N * S)) : option S := lookup k l.
(** session.rs:102-117 [get_mut_or_insert_with] (the returned reference is [lm_get] of the result) *)
Definition lm_get_or_insert (cap : nat) (k : N) (s : S) (l : list (N * S)) : option (list (N * S)) :=
  if has k l then Some l else lm_insert cap k s l.
(** session.rs:126-128; [LinearMap::remove] is a [swap_remove] *)
Definition lm_remove (k : N) (l : list (N * S)) : list (N * S) := vec_unsub k l.

(** session.rs:137-141 [SessionArray]: [None] is an index panic *)
Definition arr := list (option S).
Definition arr_new (c : nat) : arr := repeat None c.
Definition arr_put (k : N) (v : option S) (a : arr) : res arr :=
  if (N.to_nat k <? length a)%nat
  then Ok (firstn (N.to_nat k) a ++ v :: skipn (Datatypes.S (N.to_nat k)) a) else Panic.
(** session.rs:147-153 *)
Definition arr_get (k : N) (a : arr) : res (option S) :=
  match nth_error a (N.to_nat k) with Some v => Ok v | None => Panic end.
(** session.rs:155-169 *)
Definition arr_get_or_insert (k : N) (s : S) (a : arr) : res arr :=
  match arr_get k a with
  | Panic => Panic
  | Ok (Some _) => Ok a
  | Ok None => arr_put k (Some s) a
  end.
(** session.rs:171-174, 176-178 *)
Definition arr_insert (k : N) (s : S) (a : arr) : res arr := arr_put k (Some s) a.
Definition arr_remove (k : N) (a : arr) : res arr := arr_put k None a.

(** session.rs:189-236 [SessionDynamicMap]: the standard [BTreeMap], here an ordered association list *)
Fixpoint bt_insert (k : N) (s : S) (l : list (N * S)) : list (N * S) :=
  match l with
  | [] => [(k, s)]
  | (k', s') :: r =>
      if N.ltb k k' then (k, s) :: l else if N.eqb k k' then (k, s) :: r else (k', s') :: bt_insert k s r
  end.
Fixpoint bt_remove (k : N) (l : list (N * S)) : list (N * S) :=
  match l with
  | [] => []
  | (k', s') :: r => if N.eqb k k' then r else (k', s') :: bt_remove k r
  end.
Definition bt_get_or_insert (k : N) (s : S) (l : list (N * S)) : list (N * S) :=
  match lookup k l with Some _ => l | None => bt_insert k s l end.

End Tables.
Arguments subs : clear implicits.
Arguments arr : clear implicits.
