(** Model of canadensis_serial/src/cobs.rs. *)
From Verif Require Import Base.

(** [destination.get_mut(i)] followed by a store: [None] when the index is out of range. *)
Definition set_at (i : nat) (x : N) (l : list N) : option (list N) :=
  if (i <? length l)%nat then Some (firstn i l ++ x :: skipn (S i) l) else None.

(** cobs.rs:18-22, the local variables of [escape_from_iter] *)
Record esc := Esc { e_dest : list N; e_cur : nat; e_codepos : nat; e_code : N }.

(** cobs.rs:24-48, the body of the loop; [None] is [Err(OutOfMemoryError)] *)
Definition esc_step (s : esc) (byte : N) : option esc :=
  if N.eqb byte 0 then
    match set_at (e_codepos s) (e_code s) (e_dest s) with          (* 27-28 *)
    | None => None
    | Some d => Some (Esc d (e_cur s + 1)%nat (e_cur s) 1)         (* 29-32 *)
    end
  else
    match
      (if N.eqb (e_code s) 0xff then                               (* 34-41 *)
         match set_at (e_codepos s) (e_code s) (e_dest s) with
         | None => None
         | Some d => Some (Esc d (e_cur s + 1)%nat (e_cur s) 1)
         end
       else Some s)
    with
    | None => None
    | Some s1 =>
        match set_at (e_cur s1) byte (e_dest s1) with              (* 43-46 *)
        | None => None
        | Some d => Some (Esc d (e_cur s1 + 1)%nat (e_codepos s1) (e_code s1 + 1))
        end
    end.

Fixpoint esc_loop (s : esc) (source : list N) : option esc :=
  match source with
  | [] => Some s
  | b :: r => match esc_step s b with None => None | Some s' => esc_loop s' r end
  end.

(** cobs.rs:14-54 [escape_from_iter]: the number of bytes written and the destination *)
Definition escape_from_iter (source destination : list N) : option (nat * list N) :=
  match esc_loop (Esc destination 1 0 1) source with
  | None => None
  | Some s =>
      match set_at (e_codepos s) (e_code s) (e_dest s) with        (* 50-51 *)
      | None => None
      | Some d => Some (e_cur s, d)
      end
  end.

(** cobs.rs:56-62 [Unescaper] *)
Record unesc := Unesc { u_copy : N; u_zero : bool }.

(** cobs.rs:65-70 *)
Definition unesc_new : unesc := Unesc 0 false.

(** Result of [accept]: [UErr] is [Err(DecodeZeroError)] *)
Inductive unesc_out := UErr | UOk (u : unesc) (o : option N).

(** cobs.rs:72-85 [Unescaper::accept] *)
Definition unesc_accept (u : unesc) (byte : N) : unesc_out :=
  if N.eqb byte 0 then UErr
  else if N.eqb (u_copy u) 0 then
    UOk (Unesc (byte - 1) (N.ltb byte 0xff)) (if u_zero u then Some 0 else None)
  else UOk (Unesc (u_copy u - 1) (u_zero u)) (Some byte).

(** Unescaping a whole string; [None] when a zero byte is met. *)
Fixpoint unescape_from (u : unesc) (bs : list N) : option (unesc * list N) :=
  match bs with
  | [] => Some (u, [])
  | b :: r =>
      match unesc_accept u b with
      | UErr => None
      | UOk u' o =>
          match unescape_from u' r with
          | None => None
          | Some (u'', out) => Some (u'', match o with Some x => x :: out | None => out end)
          end
      end
  end.
Definition unescape (bs : list N) : option (list N) := option_map snd (unescape_from unesc_new bs).

(** cobs.rs:89-97 [escaped_size] *)
Definition escaped_size (raw : nat) : nat :=
  if (raw =? 0)%nat then 1%nat else (raw + (raw + 253) / 254)%nat.
