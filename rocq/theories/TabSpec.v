(** Specification of subscription and session tables as histories; mentions no table representation. *)
From Verif Require Import Base CoreModel.

(** One call on a subscription table, with the outcome the caller saw. *)
Inductive sub_event (S : Type) :=
| ESub (p : port) (s : S) (ok : bool)     (* subscribe returned Ok / Err *)
| EUnsub (p : port).
Arguments ESub {S} p s ok.
Arguments EUnsub {S} p.

(** What is subscribed after a history (latest event first), when a failed subscribe drops the older subscription. *)
Fixpoint sub_latest {S} (p : port) (h : list (sub_event S)) : option S :=
  match h with
  | [] => None
  | ESub p' s ok :: r => if port_eqb p' p then (if ok then Some s else None) else sub_latest p r
  | EUnsub p' :: r => if port_eqb p' p then None else sub_latest p r
  end.

(** The property as stated in the list: the latest successful subscribe not followed by an unsubscribe. *)
Fixpoint sub_latest_ok {S} (p : port) (h : list (sub_event S)) : option S :=
  match h with
  | [] => None
  | ESub p' s ok :: r => if port_eqb p' p && ok then Some s else sub_latest_ok p r
  | EUnsub p' :: r => if port_eqb p' p then None else sub_latest_ok p r
  end.

(** One call on a session table, with the outcome. *)
Inductive tab_event (S : Type) :=
| TInsert (k : N) (s : S) (ok : bool)
| TGetOrInsert (k : N) (s : S) (ok : bool)
| TRemove (k : N).
Arguments TInsert {S} k s ok.
Arguments TGetOrInsert {S} k s ok.
Arguments TRemove {S} k.

(** The value a finite map holds for [k] after a history (latest event first); failed calls change nothing. *)
Fixpoint tab_latest {S} (k : N) (h : list (tab_event S)) : option S :=
  match h with
  | [] => None
  | TInsert k' s ok :: r => if N.eqb k' k && ok then Some s else tab_latest k r
  | TGetOrInsert k' s ok :: r =>
      match tab_latest k r with
      | Some v => Some v
      | None => if N.eqb k' k && ok then Some s else None
      end
  | TRemove k' :: r => if N.eqb k' k then None else tab_latest k r
  end.

(** [n] different node IDs have a value *)
Definition holds_keys {S} (n : nat) (get : N -> option S) : Prop :=
  exists keys, NoDup keys /\ length keys = n /\ forall k, In k keys <-> get k <> None.
