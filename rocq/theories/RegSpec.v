(** Specification of register access. *)
From Verif Require Import Base CoreModel NodeModel NodeSpec EncModel EncSpec GenModel GenSpec DataTypes BasicModel BasicSpec RegModel.

(** * Registers and their values *)

(** The DSDL type of the elements (uavcan.primitive.array) *)
Definition element_prim (x : element) : prim :=
  match x with
  | U8 => PUInt 8 | U16 => PUInt 16 | U32 => PUInt 32 | U64 => PUInt 64
  | I8 => PInt 8 | I16 => PInt 16 | I32 => PInt 32 | I64 => PInt 64
  | F16 => PFloat16 | F32 => PFloat32 | F64 => PFloat64
  end.
(** the tags of uavcan.register.Value: 0 empty, 1 string, 2 unstructured, 3 bit, then integers, naturals and reals from 64 bits down *)
Definition prim_tag (p : prim) : nat :=
  match p with
  | PBool => 3
  | PInt 64 => 4 | PInt 32 => 5 | PInt 16 => 6 | PInt _ => 7
  | PUInt 64 => 8 | PUInt 32 => 9 | PUInt 16 => 10 | PUInt _ => 11
  | PFloat64 => 12 | PFloat32 => 13 | PFloat16 => 14
  | _ => 0
  end.
(** 256 bytes of elements *)
Definition room (x : element) : nat := N.to_nat (2048 / N.of_nat (prim_bits (element_prim x))).

(** What the Rust types of the registers allow *)
Definition bytes_fit (bytes : list value) : Prop := Forall (fun v => prim_fits (PUInt 8) v = true) bytes /\ (length bytes <= N.to_nat 256)%nat.
Definition content_ok (c : content) : Prop :=
  match c with
  | CNumber x v => prim_fits (element_prim x) v = true
  | CNumbers x vs => Forall (fun v => prim_fits (element_prim x) v = true) vs
  | CString bytes | CUnstructured bytes => bytes_fit bytes
  | CBool _ | CBools _ => True
  end.
(** Arrays fit in uavcan.register.Value. *)
Definition content_small (c : content) : Prop :=
  match c with CNumbers x vs => (length vs <= room x)%nat | CBools bs => (length bs <= N.to_nat 2048)%nat | _ => True end.
(** How other nodes see it *)
Definition value_of (c : content) : value :=
  match c with
  | CNumber x v => VUnion (prim_tag (element_prim x)) (VStruct [VArray [v]])
  | CNumbers x vs => VUnion (prim_tag (element_prim x)) (VStruct [VArray (firstn (room x) vs)])
  | CString bytes => VUnion 1 (VStruct [VArray bytes])
  | CUnstructured bytes => VUnion 2 (VStruct [VArray bytes])
  | CBool b => VUnion 3 (VStruct [VBits [b]])
  | CBools bs => VUnion 3 (VStruct [VBits bs])
  end.

(** UTF-8: the bytes of a Unicode scalar value, which is a code point that is not a surrogate *)
Definition unicode_scalar (c : N) : Prop := c < 0xd800 \/ 0xe000 <= c < 0x110000.
Definition utf8_bytes (c : N) : list N :=
  if c <? 0x80 then [c]
  else if c <? 0x800 then [0xc0 + c / 64; 0x80 + c mod 64]
  else if c <? 0x10000 then [0xe0 + c / 4096; 0x80 + (c / 64) mod 64; 0x80 + c mod 64]
  else [0xf0 + c / 262144; 0x80 + (c / 4096) mod 64; 0x80 + (c / 64) mod 64; 0x80 + c mod 64].
Definition is_text (bytes : list N) : Prop := exists cs, Forall unicode_scalar cs /\ bytes = concat (map utf8_bytes cs).
(** A Rust string is valid UTF-8.  A fixed string register is made by its constructor. *)
Definition register_ok (r : register) : Prop :=
  is_text (r_name r) /\ content_ok (r_content r) /\
  match r_kind r with FixedString => r_access r = Access false true /\ exists bytes, r_content r = CString bytes | _ => True end.

(** * Writing *)

Definition tag_of (v : value) : nat := match v with VUnion tag _ => tag | _ => 0 end.
Definition items_of (v : value) : list value := match v with VUnion _ (VStruct [x]) => array_items x | _ => [] end.
(** the same type, and the same number of elements, unless it is a string or unstructured *)
Definition takes (c : content) (v : value) : Prop :=
  tag_of v = tag_of (value_of c) /\
  match c with
  | CNumber _ _ | CBool _ => length (items_of v) = 1%nat
  | CNumbers _ vs => length (items_of v) = length vs
  | CBools bs => length (items_of v) = length bs
  | CString _ | CUnstructured _ => True
  end.
(** the register of this type with the value [v] *)
Definition boolean (v : value) : bool := match v with VBool b => b | _ => false end.
Definition with_value (c : content) (v : value) : content :=
  match c with
  | CNumber x _ => CNumber x (hd (VUnsigned 0) (items_of v))
  | CNumbers x _ => CNumbers x (items_of v)
  | CString _ => CString (items_of v)
  | CUnstructured _ => CUnstructured (items_of v)
  | CBool _ => CBool (boolean (hd (VBool false) (items_of v)))
  | CBools _ => CBools (map boolean (items_of v))
  end.
Definition approved (r : register) (v : value) : Prop :=
  match r_kind r with Validated accept asked => accept asked (with_value (r_content r) v) = true | _ => True end.
(** The request to write [v] into the register shall succeed. *)
Definition accepted (r : register) (v : value) : Prop := mutable (r_access r) = true /\ takes (r_content r) v /\ approved r v.

(** * Access requests *)

(** the fields of the response: time stamp, flags, value *)
Definition response_of (a : access) (v : value) : value := VStruct [VStruct [VUnsigned 0]; VBool (mutable a); VBool (persistent a); v].
(** [r] is the first register with the name. *)
Definition first_named {R} (name_of : R -> list N) (name : list N) (block : list R) (i : nat) (r : R) : Prop :=
  nth_error block i = Some r /\ name_of r = name /\ forall j x, (j < i)%nat -> nth_error block j = Some x -> name_of x <> name.
(** Only register [i] can be different: it is [r] now. *)
Definition only_changed {R} (block block' : list R) (i : nat) (r : R) : Prop :=
  length block' = length block /\ nth_error block' i = Some r /\ forall j, j <> i -> nth_error block' j = nth_error block j.
(** What a request to access register [name] with the value [v] shall do and answer *)
Definition access_rule (block : list register) (name : list N) (v : value) (block' : list register) (response : value) : Prop :=
  (~ In name (map r_name block) -> block' = block /\ response = response_of (Access false false) (VUnion 0 (VStruct []))) /\
  forall i r, first_named r_name name block i r ->
    exists r', only_changed block block' i r' /\ r_name r' = r_name r /\ r_access r' = r_access r /\
      response = response_of (r_access r) (value_of (r_content r')) /\
      (accepted r v -> value_of (r_content r') = v) /\
      (~ accepted r v -> r_content r' = r_content r).

(** Any number of requests: name, value, response; latest first *)
Definition access_log : Type := list (list N * value * value).
Inductive accesses (s : server) (block0 : list register) : access_log -> list register -> Prop :=
| acc_start : accesses s block0 [] block0
| acc_step l block name v block' response : accesses s block0 l block -> fits value_t v = true ->
    handle_access basic_registers s block name v = Ok (block', response) -> accesses s block0 ((name, v, response) :: l) block'.
(** the last response about a register *)
Fixpoint last_response (name : list N) (l : access_log) : option value :=
  match l with [] => None | (n, _, response) :: r => if list_eq_dec N.eq_dec n name then Some response else last_response name r end.

(** * Messages *)

(** The bytes are the encoding of the value. *)
Definition encodes (m : message) (bytes : list N) (v : value) : Prop :=
  bytes_ok bytes /\ (8 * length bytes = length (enc m v))%nat /\ forall i, stream_bit bytes i = nth i (enc m v) false.
(** The node sent one response for the request, or had not enough memory for the payload. *)
Definition responded (n : core) (header : svc_header) (e : env) (m : message) (v : value) (log : list entry) : Prop :=
  exists source payload calls r, c_id n = Some source /\ encodes m payload v /\
    log = [(SendResponse (Token (sh_service header) (sh_source header) (sh_tid header) (sh_prio header)) 1000000 payload e, calls, r)] /\
    if (64 <? length payload)%nat && negb (e_alloc e) then calls = [] /\ r = OError EOutOfMemory
    else calls = [CPush (Transfer (HResp (SvcH ((e_now e + 1000000) mod 2 ^ 32) (sh_tid header) (sh_prio header) (sh_service header) source (sh_source header))) false payload)] /\
         r = match e_push e with PushOk => ODone | PushWouldBlock => OWouldBlock | PushError err => OError err end.
Definition token_of (header : svc_header) : response_token := Token (sh_service header) (sh_source header) (sh_tid header) (sh_prio header).

(** The parts of the bytes of an access request: the length of the name, the name; the tag of the value and the number of its elements *)
Definition request_name (bytes : list N) : list N := map (fun i => nth (1 + i) bytes 0) (seq 0 (N.to_nat (nth 0 bytes 0))).
Definition request_tag (bytes : list N) : N := nth (1 + length (request_name bytes)) bytes 0.
Definition request_count (bytes : list N) : N := nth (2 + length (request_name bytes)) bytes 0 + 256 * nth (3 + length (request_name bytes)) bytes 0.
(** an array of more than 2048 booleans *)
Definition oversized (bytes : list N) : Prop := request_tag bytes = 3 /\ 2048 < request_count bytes.
