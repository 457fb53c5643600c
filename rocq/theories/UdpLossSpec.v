(** Words for what a node has tried to publish. *)
From Verif Require Import Base CoreModel HeaderModel UdpModel UdpSpec NodeModel NodeSpec.

(** The messages on a subject that a node has handed to its transmitter, whether [publish] returned [Ok] or not, latest first *)
Definition tried_messages (subject : N) (h : list entry) : list transfer :=
  flat_map (fun en : entry => flat_map (fun c => match c with CPush t => match t_header t with HMsg m => if mh_subject m =? subject then [t] else [] | _ => [] end | _ => [] end) (snd (fst en))) h.
(** No two of them have the same transfer ID *)
Definition distinct_ids (subject : N) (h : list entry) : Prop := NoDup (map (fun t => h_tid (t_header t)) (tried_messages subject h)).
(** The network loses the datagrams with the transfer IDs [lost], and keeps the others *)
Definition survives (rmtu : nat) (lost : N -> bool) (d : list N) : bool := match parsed rmtu d with Some (f, _) => negb (lost (fh_tid f)) | None => false end.
(** The transfers on a port of a service to a node that a node has handed to its transmitter, latest first *)
Definition tried_to (p : port) (node : N) (h : list entry) : list transfer :=
  flat_map (fun en : entry => flat_map (fun c => match c with CPush t => if port_eqb (h_port (t_header t)) p && match h_dest (t_header t) with Some d => d =? node | None => false end then [t] else [] | _ => [] end) (snd (fst en))) h.
Definition distinct_ids_to (p : port) (node : N) (h : list entry) : Prop := NoDup (map (fun t => h_tid (t_header t)) (tried_to p node h)).
(** The first [j] bytes of a payload, sent with an MTU, are those of whole datagrams (or none), and at least two datagrams follow *)
Definition lost_start (mtu : nat) (payload : list N) (j : nat) : Prop := j = 0%nat \/ ((exists i, j = i * (mtu - 24)) /\ j + (mtu - 24) < length payload + 4)%nat.
(** Time [b] of the clock is at most [timeout] after [a] *)
Definition near (timeout a b : N) : Prop := exists age, t_since b a = Some age /\ age <= timeout.
