(** Specification of lists of subject IDs. *)
From Verif Require Import Base GenModel.

(** A sparse list of subject IDs, as a value of uavcan.node.port.SubjectIDList.1.0: the second variant of the union, a list of
    uavcan.node.port.SubjectID.1.0, each of which has one field. *)
Definition sparse_list (ids : list N) : value := VUnion 1 (VArray (map (fun id => VStruct [VUnsigned id]) ids)).
(** What a [SubjectIdList<N>] can hold. *)
Definition sid_ok (capacity : nat) (ids : list N) : Prop := (length ids <= capacity)%nat /\ Forall (fun id => id <= 8191) ids.
