(** Words for remote procedure calls over UDP. *)
From Verif Require Import Base CoreModel NodeModel UdpModel UdpNodeModel.

(** The datagrams that were sent to the group of a node, oldest first *)
Definition sent_to (node : N) (out : list (N * list N)) : list (list N) := map snd (filter (fun e => fst e =? ip_of_address (ANode node)) out).
(** They have at least 28 bytes *)
Definition long_to (node : N) (out : list (N * list N)) : Prop := forall d, In (ip_of_address (ANode node), d) out -> (28 <= length d)%nat.
