(** DSDL types of canadensis_data_types/src/generated.rs that the library itself uses, as types of [GenModel].  The code in
    generated.rs is what the generator prints for them. *)
From Verif Require Import Base GenModel.

Definition uint (bits : nat) : rtype message := TScalar (SPrimitive (PUInt bits)).
(** generated.rs:9108-9171 uavcan.node.Health.1.0, 9384-9441 Mode.1.0, 9173-9267 Heartbeat.1.0 *)
Definition health_t : message := Message false (KStruct [MData (uint 2)]).
Definition mode_t : message := Message false (KStruct [MData (uint 3)]).
Definition heartbeat_t : message := Message true (KStruct [MData (uint 32); MData (TScalar (SComposite health_t)); MData (TScalar (SComposite mode_t)); MData (uint 8)]).
Definition heartbeat_subject : N := 7509.
(** generated.rs:10094-10150 uavcan.node.Version.1.0, 8747-9105 GetInfo.1.0 (the response) *)
Definition version_t : message := Message false (KStruct [MData (uint 8); MData (uint 8)]).
Definition get_info_t : message := Message true (KStruct [MData (TScalar (SComposite version_t)); MData (TScalar (SComposite version_t)); MData (TScalar (SComposite version_t)); MData (uint 64);
  MData (TFixed (SPrimitive (PUInt 8)) 16); MData (TVariable (SPrimitive (PUInt 8)) 50); MData (TVariable (SPrimitive (PUInt 64)) 1); MData (TVariable (SPrimitive (PUInt 8)) 222)]).
Definition get_info_service : N := 430.
(** generated.rs:11432-11466 uavcan.primitive.Empty.1.0, 9830-9880 uavcan.node.port.SubjectID.1.0, 9986-10092 SubjectIDList.1.0,
    9776-9828 ServiceIDList.1.0, 9588-9680 List.1.0 *)
Definition empty_t : message := Message false (KStruct []).
Definition subject_id_t : message := Message false (KStruct [MData (uint 13)]).
Definition subject_id_list_t : message := Message true (KUnion [TFixed (SPrimitive PBool) 8192; TVariable (SComposite subject_id_t) 255; TScalar (SComposite empty_t)]).
Definition service_id_list_t : message := Message true (KStruct [MData (TFixed (SPrimitive PBool) 512)]).
Definition port_list_t : message := Message false (KStruct [MData (TScalar (SComposite subject_id_list_t)); MData (TScalar (SComposite subject_id_list_t)); MData (TScalar (SComposite service_id_list_t)); MData (TScalar (SComposite service_id_list_t))]).
Definition port_list_subject : N := 7510.
(** generated.rs:17344-17399 uavcan.time.SynchronizedTimestamp.1.0 *)
Definition timestamp_t : message := Message false (KStruct [MData (uint 56)]).
(** generated.rs:12018-12072 uavcan.primitive.String.1.0, 12074-12128 Unstructured.1.0, 10756-11430 uavcan.primitive.array.*.1.0 *)
Definition array_t (p : prim) (max_len : N) : message := Message false (KStruct [MData (TVariable (SPrimitive p) max_len)]).
Definition string_t : message := array_t (PUInt 8) 256.
Definition unstructured_t : message := array_t (PUInt 8) 256.
Definition bit_t : message := array_t PBool 2048.
(** generated.rs:12379-12430 uavcan.register.Name.1.0, 12432-12627 Value.1.0, 12132-12281 Access.1.0, 12283-12377 List.1.0 *)
Definition name_t : message := array_t (PUInt 8) 255.
Definition value_variants : list message :=
  [empty_t; string_t; unstructured_t; bit_t;
   array_t (PInt 64) 32; array_t (PInt 32) 64; array_t (PInt 16) 128; array_t (PInt 8) 256;
   array_t (PUInt 64) 32; array_t (PUInt 32) 64; array_t (PUInt 16) 128; array_t (PUInt 8) 256;
   array_t PFloat64 32; array_t PFloat32 64; array_t PFloat16 128].
Definition value_t : message := Message false (KUnion (map (fun m => TScalar (SComposite m)) value_variants)).
Definition access_service : N := 384.
Definition access_request_t : message := Message false (KStruct [MData (TScalar (SComposite name_t)); MData (TScalar (SComposite value_t))]).
Definition access_response_t : message := Message false (KStruct [MData (TScalar (SComposite timestamp_t)); MData (TScalar (SPrimitive PBool)); MData (TScalar (SPrimitive PBool)); MPadding 6; MData (TScalar (SComposite value_t))]).
Definition list_service : N := 385.
Definition list_request_t : message := Message false (KStruct [MData (uint 16)]).
Definition list_response_t : message := Message false (KStruct [MData (TScalar (SComposite name_t))]).
