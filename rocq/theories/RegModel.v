(** Model of canadensis/src/register.rs, register/basic.rs, service/register_server.rs and of what
    canadensis_derive_register_block/src/lib.rs generates.

    A [&str] is its bytes.  A value of uavcan.register.Value is a [value] of [value_t].  Only blocks that the derive macro makes are
    modelled: a list of registers. *)
From Verif Require Import Base CoreModel NodeModel NodeSpec EncModel GenModel DataTypes BasicModel.

(** * Any registers *)

(** register.rs:60-72 [Access] *)
Record access := Access { mutable : bool; persistent : bool }.
(** register.rs:74-106 [Register], for registers with states [R]; the result of [write] is false for an error *)
Record register_ops (R : Type) := RegisterOps {
  name_of : R -> list N;
  access_of : R -> access;
  read_of : R -> res value;
  write_of : R -> value -> res (R * bool) }.
Arguments RegisterOps {R}. Arguments name_of {R}. Arguments access_of {R}. Arguments read_of {R}. Arguments write_of {R}.

Fixpoint bytes_eqb (a b : list N) : bool :=
  match a, b with [], [] => true | x :: a', y :: b' => (x =? y) && bytes_eqb a' b' | _, _ => false end.
(** canadensis_derive_register_block/src/lib.rs:44-49 [register_by_name_mut]: the position of the register *)
Fixpoint by_name {R} (ops : register_ops R) (name : list N) (block : list R) : option nat :=
  match block with
  | [] => None
  | r :: rest => if bytes_eqb name (name_of ops r) then Some O else option_map S (by_name ops name rest)
  end.
(** a change of a register in its place *)
Fixpoint put_at {A} (i : nat) (x : A) (l : list A) : list A :=
  match l, i with [], _ => [] | _ :: r, O => x :: r | y :: r, S j => y :: put_at j x r end.

(** core [str::from_utf8]: does it succeed? *)
Definition tail_byte (b : N) : bool := (128 <=? b) && (b <=? 191).
Fixpoint utf8 (s : list N) : bool :=
  match s with
  | [] => true
  | a :: r =>
      if a <=? 127 then utf8 r
      else match r with
      | b :: r1 =>
          if (194 <=? a) && (a <=? 223) then tail_byte b && utf8 r1
          else match r1 with
          | c :: r2 =>
              if (224 <=? a) && (a <=? 239)
              then (if a =? 224 then (160 <=? b) && (b <=? 191) else if a =? 237 then (128 <=? b) && (b <=? 159) else tail_byte b) && tail_byte c && utf8 r2
              else match r2 with
              | d :: r3 =>
                  (240 <=? a) && (a <=? 244) && (if a =? 240 then (144 <=? b) && (b <=? 191) else if a =? 244 then (128 <=? b) && (b <=? 143) else tail_byte b) &&
                  tail_byte c && tail_byte d && utf8 r3
              | [] => false
              end
          | [] => false
          end
      | [] => false
      end
  end.

(** [Value::Empty] *)
Definition empty_value : value := VUnion 0 (VStruct []).
Definition is_empty (v : value) : bool := match v with VUnion O _ => true | _ => false end.
(** [AccessResponse] *)
Definition access_response (a : access) (v : value) : value := VStruct [VStruct [VUnsigned 0]; VBool (mutable a); VBool (persistent a); v].

(** The two servers: [RegisterHandler] and [RegisterServerService] *)
Inductive server := HandlerServer | ServiceServer.
Section Registers.
  Context {R : Type} (ops : register_ops R).
  (** register.rs:230-248 [register_handle_access], register_server.rs:124-133: the second one writes also [Value::Empty] *)
  Definition access_register (s : server) (r : R) (v : value) : res (R * value) :=
    let a := access_of ops r in
    let write := match s with HandlerServer => mutable a && negb (is_empty v) | ServiceServer => mutable a end in
    bind (if write then bind (write_of ops r v) (fun x => Ok (fst x)) else Ok r) (fun r' =>
    bind (read_of ops r') (fun now => Ok (r', access_response a now))).
  (** register.rs:167-197 [handle_access_request], register_server.rs:115-135 *)
  Definition handle_access (s : server) (block : list R) (name : list N) (v : value) : res (list R * value) :=
    let absent := access_response (Access false false) empty_value in
    if utf8 name then
      match by_name ops name block with
      | Some i =>
          match nth_error block i with
          | Some r => bind (access_register s r v) (fun x => Ok (put_at i (fst x) block, snd x))
          | None => Panic (* does not happen *)
          end
      | None => Ok (block, absent)
      end
    else Ok (block, absent).
  (** register.rs:199-227 [handle_list_request], register_server.rs:83-103; [heapless::Vec::<u8, 255>::from_slice] and [expect] *)
  Definition handle_list (block : list R) (index : N) : res value :=
    match nth_error block (N.to_nat index) with
    | Some r =>
        let name := name_of ops r in
        let name := if (length name <=? N.to_nat 256)%nat then name else firstn (N.to_nat 256) name in
        if (length name <=? N.to_nat 255)%nat then Ok (VStruct [VStruct [VArray (map VUnsigned name)]]) else Panic
    | None => Ok (VStruct [VStruct [VArray []]])
    end.

  (** register.rs:255-288, register_server.rs:73-147 [handle_request]: whether the request was handled, the node, the registers and
      what the node did *)
  Definition respond (n : core) (token : response_token) (m : message) (v : value) (e : env) : res (core * entry) :=
    bind (payload_of m v) (fun payload => inner_step n (SendResponse token 1000000 payload e)).
  Definition register_request (s : server) (n : core) (block : list R) (token : response_token) (header : svc_header) (payload : list N) (e : env)
    : res (bool * core * list R * list entry) :=
    if sh_service header =? access_service then
      bind (deserialize_from_bytes access_request_t payload) (fun d =>
      match d with
      | DOk (VStruct [VStruct [VArray name]; v]) =>
          bind (handle_access s block (map unsigned_of name) v) (fun x =>
          bind (respond n token access_response_t (snd x) e) (fun y => Ok (true, fst y, fst x, [snd y])))
      | _ => Ok (false, n, block, [])
      end)
    else if sh_service header =? list_service then
      bind (deserialize_from_bytes list_request_t payload) (fun d =>
      match d with
      | DOk (VStruct [VUnsigned index]) =>
          bind (handle_list block index) (fun v =>
          bind (respond n token list_response_t v e) (fun y => Ok (true, fst y, block, [snd y])))
      | _ => Ok (false, n, block, [])
      end)
    else Ok (false, n, block, []).
End Registers.

(** register.rs:143-152 [subscribe_requests]; register_server.rs:34-45 [new]: the operations of the node, one after the other until one fails *)
Definition register_subscriptions (s : server) (a1 a2 : sub_result) : list op :=
  match s with
  | HandlerServer => [SubscribeRequest access_service 515 1000000 a1; SubscribeRequest list_service 2 0 a2]
  | ServiceServer => [SubscribeRequest list_service 2 1000000 a1; SubscribeRequest access_service 515 1000000 a2]
  end.

(** * Basic registers *)

(** basic.rs:303-313: the primitive types *)
Inductive element := U8 | U16 | U32 | U64 | I8 | I16 | I32 | I64 | F16 | F32 | F64.
Definition element_tag (x : element) : nat :=
  match x with U8 => 11 | U16 => 10 | U32 => 9 | U64 => 8 | I8 => 7 | I16 => 6 | I32 => 5 | I64 => 4 | F16 => 14 | F32 => 13 | F64 => 12 end.
(** the capacity of the [heapless::Vec] in the variant *)
Definition element_capacity (x : element) : nat :=
  match x with U8 | I8 => N.to_nat 256 | U16 | I16 | F16 => 128 | U32 | I32 | F32 => 64 | U64 | I64 | F64 => 32 end.

(** the types that implement [RegisterType], and their values: a number, an array of numbers, a string, unstructured bytes, a
    boolean, an array of booleans *)
Inductive content :=
| CNumber (x : element) (v : value)
| CNumbers (x : element) (vs : list value)
| CString (bytes : list value)
| CUnstructured (bytes : list value)
| CBool (b : bool)
| CBools (bs : list bool).

Definition variant (tag : nat) (v : value) : value := VUnion tag (VStruct [v]).
(** a loop of [BitArray::set] from position [i] *)
Fixpoint set_bits (a : bitarray) (i : nat) (bs : list bool) : res bitarray :=
  match bs with [] => Ok a | b :: r => bind (ba_set a i b) (fun a' => set_bits a' (S i) r) end.
(** basic.rs:281-285, 322-335, 376-380, 420-424, 449-453, 470-478 [RegisterType::read] *)
Definition content_read (c : content) : res value :=
  match c with
  | CNumber x v => Ok (variant (element_tag x) (VArray [v]))
  | CNumbers x vs => Ok (variant (element_tag x) (VArray (if (length vs <=? element_capacity x)%nat then vs else firstn (element_capacity x) vs)))
  | CString bytes => Ok (variant 1 (VArray bytes))
  | CUnstructured bytes => Ok (variant 2 (VArray bytes))
  | CBool b => bind (ba_new (N.to_nat 256) 1) (fun a => bind (set_bits a 0 [b]) (fun a' => bind (bits_value a') (fun v => Ok (variant 3 v))))
  | CBools bs => bind (ba_new (N.to_nat 256) (length bs)) (fun a => bind (set_bits a 0 bs) (fun a' => bind (bits_value a') (fun v => Ok (variant 3 v))))
  end.
(** basic.rs:287-298, 341-353, 382-390, 426-434, 455-466, 480-493 [RegisterType::write]; [None] is [WriteError::Type] *)
Definition content_write (c : content) (v : value) : option content :=
  match c, v with
  | CNumber x _, VUnion tag (VStruct [VArray vs]) =>
      if (tag =? element_tag x)%nat then match vs with [y] => Some (CNumber x y) | _ => None end else None
  | CNumbers x old, VUnion tag (VStruct [VArray vs]) =>
      if (tag =? element_tag x)%nat then if (length vs =? length old)%nat then Some (CNumbers x vs) else None else None
  | CString _, VUnion 1 (VStruct [VArray bytes]) => Some (CString bytes)
  | CUnstructured _, VUnion 2 (VStruct [VArray bytes]) => Some (CUnstructured bytes)
  | CBool _, VUnion 3 (VStruct [VBits bs]) => match bs with [b] => Some (CBool b) | _ => None end
  | CBools old, VUnion 3 (VStruct [VBits bs]) => if (length bs =? length old)%nat then Some (CBools bs) else None
  | _, _ => None
  end.

(** basic.rs:23-30 [SimpleRegister], 130-135 [ValidatedRegister], 506-511 [FixedStringRegister].  A validator can have a state: it gets
    the contents that it was asked about before, latest first *)
Inductive register_kind :=
| Simple
| Validated (accept : list content -> content -> bool) (asked : list content)
| FixedString.
Record register := Register { r_name : list N; r_access : access; r_content : content; r_kind : register_kind }.
(** basic.rs:46-55, 182-198 [with_value] *)
Definition simple_new (name : list N) (mutable persistent : bool) (c : content) : register := Register name (Access mutable persistent) c Simple.
Definition validated_new (name : list N) (mutable persistent : bool) (c : content) (accept : list content -> content -> bool) : register :=
  Register name (Access mutable persistent) c (Validated accept []).
(** basic.rs:517-523 [FixedStringRegister::new], 531-536 [access] *)
Definition fixed_string_new (name text : list N) : option register :=
  if negb (length name =? 0)%nat && (length name <=? N.to_nat 256)%nat && (length text <=? N.to_nat 256)%nat
  then Some (Register name (Access false true) (CString (map VUnsigned text)) FixedString) else None.
(** basic.rs:87-91, 231-240, 545-547 [write] *)
Definition register_write (r : register) (v : value) : res (register * bool) :=
  let 'Register name a c k := r in
  match k with
  | Simple => match content_write c v with Some c' => Ok (Register name a c' Simple, true) | None => Ok (r, false) end
  | Validated accept asked =>
      match content_write c v with
      | Some c' =>
          if accept asked c' then Ok (Register name a c' (Validated accept (c' :: asked)), true)
          else Ok (Register name a c (Validated accept (c' :: asked)), false)
      | None => Ok (r, false)
      end
  | FixedString => Panic
  end.
(** basic.rs:71-92, 214-241, 526-548; [FixedStringRegister::read] panics if the value is longer than 256 bytes *)
Definition register_read (r : register) : res value :=
  match r_kind r, r_content r with
  | FixedString, CString bytes => if (length bytes <=? N.to_nat 256)%nat then Ok (variant 1 (VArray bytes)) else Panic
  | _, c => content_read c
  end.
Definition basic_registers : register_ops register :=
  RegisterOps r_name r_access register_read register_write.
