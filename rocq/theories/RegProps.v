(** Properties of register access. *)
From Verif Require Import Base BitLemmas CoreModel NodeModel NodeSpec EncModel EncSpec EncWriteProofs EncReadProofs EncProps BlsModel BlsSpec GenModel GenSpec GenLenProofs GenSizeProofs GenWriteProofs GenReadProofs GenDecProofs GenProps GenBoundProofs DataTypes BasicModel BasicSpec BasicProofs RegModel RegSpec RegProofs RegDecProofs.
Ltac Zify.zify_post_hook ::= Z.div_mod_to_equations.

(** * C51: access to registers *)

(** A request to access a register that is completed: only this register can change, it changes only if it is mutable and has the type
    of the value, and then its value is the one in the request; the response has the flags and the present value; the response for an
    unknown register is empty. *)
Theorem C51_access : forall s block name v block' response, Forall register_ok block -> fits value_t v = true ->
  handle_access basic_registers s block name v = Ok (block', response) -> access_rule block name v block' response /\ Forall register_ok block'.
Proof. intros s block name v block' response F Hv E. destruct (handle_access_right s block name v F Hv) as (H & _). destruct (H _ _ E) as (H1 & H2 & _). split; assumption. Qed.
Print Assumptions C51_access.

Lemma nth_error_map_eq {A B} (f : A -> B) l l' : map f l = map f l' -> forall i x, nth_error l i = Some x -> exists y, nth_error l' i = Some y /\ f y = f x.
Proof.
  intros E i x Hx. assert (X : nth_error (map f l) i = Some (f x)) by (rewrite nth_error_map, Hx; reflexivity). rewrite E, nth_error_map in X. destruct (nth_error l' i) as [y|]; [|discriminate X]. injection X as X. exists y. auto.
Qed.
Lemma nth_error_same {A} (l l' : list A) : (forall i, nth_error l i = nth_error l' i) -> l = l'.
Proof.
  revert l'. induction l as [|x l IH]; intros [|y l'] H; [reflexivity|specialize (H O); discriminate H|specialize (H O); discriminate H|]. pose proof (H O) as X. injection X as ->. f_equal. apply IH. intro i. exact (H (S i)).
Qed.
Lemma changed_map {A B} (f : A -> B) l l' i x x' : only_changed l l' i x' -> nth_error l i = Some x -> f x' = f x -> map f l' = map f l.
Proof.
  intros (L & Hi & Ho) Hx E. apply nth_error_same. intro j. rewrite !nth_error_map. destruct (Nat.eq_dec j i) as [->|N]; [rewrite Hi, Hx; cbn [option_map]; congruence|rewrite Ho by assumption; reflexivity].
Qed.
Lemma first_named_transfer block block0 name i r : map r_name block = map r_name block0 -> first_named r_name name block i r -> exists r0, first_named r_name name block0 i r0.
Proof.
  intros E (H1 & H2 & H3). destruct (nth_error_map_eq _ _ _ E i r H1) as (r0 & E0 & N0). exists r0. split; [exact E0|]. split; [congruence|]. intros j x Hj Hx. symmetry in E. destruct (nth_error_map_eq _ _ _ E j x Hx) as (y & Ey & Ny). rewrite <- Ny. apply (H3 j y Hj Ey).
Qed.
Lemma accepted_dec r v : register_ok r -> fits value_t v = true -> accepted r v \/ ~ accepted r v.
Proof.
  intros (_ & C & _) F. unfold accepted. destruct (mutable (r_access r)); [|right; intros (X & _); discriminate X]. destruct (content_write_right _ _ C F) as [(T & _)|(T & _)]; [|right; tauto].
  unfold approved. destruct (r_kind r) as [|accept asked|]; try (left; tauto). destruct (accept asked (with_value (r_content r) v)); [left; tauto|right]. intros (_ & _ & X). discriminate X.
Qed.
Lemma by_name_cases block name : In name (map r_name block) -> exists i r, first_named r_name name block i r.
Proof.
  intro H. destruct (by_name basic_registers name block) as [i|] eqn:E.
  - apply by_name_first in E as (r & Hr). exists i, r. exact Hr.
  - apply by_name_none in E. contradiction.
Qed.
(** After any requests: the names and flags are the ones of the beginning, an immutable register has its initial content, and the
    value of a register is the one in the last response about it, or the initial one. *)
Theorem C51_history : forall s block0 log block, Forall register_ok block0 -> accesses s block0 log block ->
  map r_name block = map r_name block0 /\ map r_access block = map r_access block0 /\
  forall i r0 r, nth_error block0 i = Some r0 -> nth_error block i = Some r ->
    (mutable (r_access r0) = false -> r_content r = r_content r0) /\
    (first_named r_name (r_name r0) block0 i r0 ->
       match last_response (r_name r0) log with
       | None => r_content r = r_content r0
       | Some response => response = response_of (r_access r0) (value_of (r_content r))
       end) /\
    (~ first_named r_name (r_name r0) block0 i r0 -> r_content r = r_content r0).
Proof.
  intros s block0 log block F H. assert (G : Forall register_ok block /\ map r_name block = map r_name block0 /\ map r_access block = map r_access block0 /\
    forall i r0 r, nth_error block0 i = Some r0 -> nth_error block i = Some r ->
    (mutable (r_access r0) = false -> r_content r = r_content r0) /\
    (first_named r_name (r_name r0) block0 i r0 ->
       match last_response (r_name r0) log with
       | None => r_content r = r_content r0
       | Some response => response = response_of (r_access r0) (value_of (r_content r))
       end) /\
    (~ first_named r_name (r_name r0) block0 i r0 -> r_content r = r_content r0)); [|apply G].
  induction H as [|log block name v block' response H IH Hv E].
  - split; [assumption|]. split; [reflexivity|]. split; [reflexivity|]. intros i r0 r E0 E1. rewrite E0 in E1. injection E1 as <-. split; [reflexivity|]. split; [reflexivity|reflexivity].
  - destruct IH as (Fb & En & Ea & IH). destruct (C51_access _ _ _ _ _ _ Fb Hv E) as ((A1 & A2) & Fb'). split; [assumption|].
    destruct (in_dec (list_eq_dec N.eq_dec) name (map r_name block)) as [In1|NI].
    + destruct (by_name_cases _ _ In1) as (k & rk & Hk). destruct (A2 k rk Hk) as (rk' & Ch & N' & Ac' & Rs & W1 & W2). pose proof Hk as (K1 & K2 & K3).
      assert (En' : map r_name block' = map r_name block) by (apply (changed_map r_name _ _ _ _ _ Ch K1 N')). assert (Ea' : map r_access block' = map r_access block) by (apply (changed_map r_access _ _ _ _ _ Ch K1 Ac')).
      split; [congruence|]. split; [congruence|]. intros i r0 r E0 E1. destruct (nth_error_map_eq r_name block' block En' i r E1) as (rb & Eb & _). destruct (IH i r0 rb E0 Eb) as (I1 & I2 & I3).
      assert (Accs : r_access rb = r_access r0) by (destruct (nth_error_map_eq _ _ _ Ea i rb Eb) as (y & Ey & Ay); congruence).
      assert (Nms : r_name rb = r_name r0) by (destruct (nth_error_map_eq _ _ _ En i rb Eb) as (y & Ey & Ay); congruence).
      destruct (first_named_transfer _ _ _ _ _ En Hk) as (r0k & Hk0).
      destruct Ch as (_ & C2 & C3). destruct (Nat.eq_dec i k) as [->|Nk].
      * rewrite C2 in E1. injection E1 as <-. rewrite K1 in Eb. injection Eb as <-. assert (X0 : r0k = r0) by (destruct Hk0 as (Y & _); congruence). subst r0k. assert (Nm0 : name = r_name r0) by congruence. subst name.
        split.
        -- intro M. rewrite W2; [apply I1, M|]. intros (M' & _). congruence.
        -- split.
           ++ intros _. cbn [last_response]. destruct (list_eq_dec N.eq_dec (r_name rk) (r_name r0)) as [_|X]; [|congruence]. rewrite <- Accs. exact Rs.
           ++ intro X. exfalso. apply X. congruence.
      * rewrite C3 in E1 by assumption. rewrite Eb in E1. injection E1 as <-. split; [exact I1|]. split; [|exact I3]. intro X. cbn [last_response]. destruct (list_eq_dec N.eq_dec name (r_name r0)) as [Eq|_]; [|apply I2, X].
        exfalso. subst name. rewrite Eq in Hk0. destruct (first_named_unique _ _ _ _ _ _ _ X Hk0) as (Y & _). contradiction.
    + destruct (A1 NI) as (-> & ->). split; [assumption|]. split; [assumption|]. intros i r0 r E0 E1. destruct (IH i r0 r E0 E1) as (I1 & I2 & I3). split; [exact I1|]. split; [|exact I3]. intro X. cbn [last_response].
      destruct (list_eq_dec N.eq_dec name (r_name r0)) as [Eq|_]; [|apply I2, X]. exfalso. apply NI. rewrite Eq, En. apply in_map. apply (nth_error_In _ _ E0).
Qed.
Print Assumptions C51_history.

(** Any implementation of registers: one that says that it is not mutable is not written. *)
Lemma put_at_same {A} (l : list A) : forall i x, nth_error l i = Some x -> put_at i x l = l.
Proof. induction l as [|y l IH]; intros [|i] x E; try discriminate E; cbn [put_at]; [injection E as ->; reflexivity|]. rewrite (IH i x E). reflexivity. Qed.
Theorem C51_immutable : forall R (ops : register_ops R) s block name v block' response i r,
  first_named (name_of ops) name block i r -> mutable (access_of ops r) = false ->
  handle_access ops s block name v = Ok (block', response) -> block' = block.
Proof.
  intros R ops s block name v block' response i r Hf M. unfold handle_access. destruct (utf8 name); [|intro E; injection E as <- _; reflexivity].
  rewrite (proj2 (by_name_first ops name block i)) by (exists r; exact Hf). destruct Hf as (H1 & _). rewrite H1. unfold access_register. rewrite M. destruct s; cbn [andb bind]; (destruct (read_of ops r); cbn [bind fst snd]; [|discriminate]); intro E; injection E as <- _; apply put_at_same, H1.
Qed.
Print Assumptions C51_immutable.

(** The two servers do the same. *)
Lemma write_empty r v : register_ok r -> is_empty v = true -> mutable (r_access r) = true -> register_write r v = Ok (r, false).
Proof.
  intros (_ & _ & K) E M. destruct r as [name a c k]. cbn [register_write r_access r_kind] in *. assert (W : content_write c v = None).
  { destruct v as [| | | | | |[|t] v]; try discriminate E. destruct c as [x w|x vs|old|old|b|bs]; cbn [content_write]; try reflexivity; destruct v as [| | | | |[|[] [|] ]|]; try reflexivity; (destruct (Nat.eqb_spec 0 (element_tag x)) as [X|]; [pose proof (element_tag_big x); lia|reflexivity]). }
  rewrite W. destruct k; try reflexivity. destruct K as (-> & _). discriminate M.
Qed.
Theorem C51_servers : forall block name v, Forall register_ok block -> fits value_t v = true ->
  handle_access basic_registers HandlerServer block name v = handle_access basic_registers ServiceServer block name v.
Proof.
  intros block name v F Hv. unfold handle_access. destruct (utf8 name); [|reflexivity]. destruct (by_name basic_registers name block) as [i|]; [|reflexivity]. destruct (nth_error block i) as [r|] eqn:E; [|reflexivity]. f_equal.
  pose proof (nth_error_Forall _ _ _ _ F E) as O. unfold access_register. cbn [access_of read_of write_of basic_registers]. destruct (mutable (r_access r)) eqn:M; [|reflexivity]. cbn [andb]. destruct (is_empty v) eqn:V; cbn [negb]; [|reflexivity].
  rewrite (write_empty r v O V M). reflexivity.
Qed.
Print Assumptions C51_servers.

(** * C78: requests do not crash the node *)

Lemma access_response_sendable : compiles access_response_t /\ good access_response_t = true /\ bound access_response_t < 8 * (2 ^ 32 - 1).
Proof. split; [compiled_type|]. split; vm_compute; reflexivity. Qed.
Lemma list_response_sendable : compiles list_response_t /\ good list_response_t = true /\ bound list_response_t < 8 * (2 ^ 32 - 1).
Proof. split; [compiled_type|]. split; vm_compute; reflexivity. Qed.
Lemma rule_response s block name v block' response : Forall register_ok block -> Forall (fun r => content_small (r_content r)) block -> fits value_t v = true ->
  handle_access basic_registers s block name v = Ok (block', response) -> fits access_response_t response = true.
Proof.
  intros F S Hv E. destruct (handle_access_right s block name v F Hv) as (H & _). destruct (H _ _ E) as ((A1 & A2) & F' & S'). specialize (S' S).
  destruct (in_dec (list_eq_dec N.eq_dec) name (map r_name block)) as [In1|NI].
  - destruct (by_name_cases _ _ In1) as (k & rk & Hk). destruct (A2 k rk Hk) as (rk' & (_ & C & _) & _ & _ & -> & _). apply access_response_fits, value_of_fits; [apply (nth_error_Forall _ _ _ _ F' C)|exact (nth_error_Forall _ _ _ _ S' C)].
  - destruct (A1 NI) as (_ & ->). vm_compute. reflexivity.
Qed.
(** Every access request is handled: its name and value are taken from its bytes, the rule holds, and the response is sent; a request
    that cannot be decoded is left to other handlers.  Missing: arrays of more than 2048 booleans. *)
Theorem C51_request_partial : forall s n source block header payload e, c_id n = Some source -> sh_service header = access_service -> bytes_ok payload ->
  Forall register_ok block -> Forall (fun r => content_small (r_content r)) block -> ~ oversized payload ->
  exists handled block' log, register_request basic_registers s n block (token_of header) header payload e = Ok (handled, n, block', log) /\
    if handled then exists v response, deserialize_from_bytes access_request_t payload = Ok (DOk (VStruct [VStruct [VArray (map VUnsigned (request_name payload))]; v])) /\
        fits value_t v = true /\ tag_of v = N.to_nat (request_tag payload) /\
        access_rule block (request_name payload) v block' response /\ responded n header e access_response_t response log
    else block' = block /\ log = [] /\ exists err, deserialize_from_bytes access_request_t payload = Ok (DErr err).
Proof.
  intros s n source block header payload e Hid Hs B F S O. unfold register_request. rewrite Hs, N.eqb_refl. destruct (decode_access payload B) as [(O' & _)|(_ & r & E & K)]; [contradiction|]. rewrite E. cbn [bind]. destruct r as [x|err].
  - destruct K as (v & -> & Fv & Tv). assert (U : map unsigned_of (map VUnsigned (request_name payload)) = request_name payload) by (rewrite map_map; apply map_id). rewrite U.
    destruct (handle_access_right s block (request_name payload) v F Fv) as (H1 & H2). destruct (H2 S) as ((block' & response) & Eh). rewrite Eh. cbn [bind fst snd]. destruct (H1 _ _ Eh) as (R & _).
    destruct access_response_sendable as (C & G & Bd). destruct (respond_right n header access_response_t response e source Hid C G Bd (rule_response s _ _ _ _ _ F S Fv Eh)) as (y & Ey & Ry). rewrite Ey. cbn [bind fst snd].
    exists true, block', [y]. split; [reflexivity|]. exists v, response. split; [reflexivity|]. split; [exact Fv|]. split; [exact Tv|]. split; [exact R|exact Ry].
  - exists false, block, []. split; [reflexivity|]. split; [reflexivity|]. split; [reflexivity|]. exists err. reflexivity.
Qed.
Print Assumptions C51_request_partial.
(** Other services are left to other handlers. *)
Theorem C51_others : forall R (ops : register_ops R) s n block token header payload e, sh_service header <> access_service -> sh_service header <> list_service ->
  register_request ops s n block token header payload e = Ok (false, n, block, []).
Proof. intros R ops s n block token header payload e H1 H2. unfold register_request. rewrite (proj2 (N.eqb_neq _ _) H1), (proj2 (N.eqb_neq _ _) H2). reflexivity. Qed.
Print Assumptions C51_others.

Definition speed_ex : register := simple_new [115; 112; 101; 101; 100] true true (CNumbers U16 [VUnsigned 10; VUnsigned 20]).
Definition even_ex : register := validated_new [101; 118; 101; 110] true false (CNumber U8 (VUnsigned 4)) (fun _ c => match c with CNumber _ (VUnsigned x) => N.even x | _ => false end).
Definition serial_ex : register := simple_new [115] false true (CString [VUnsigned 65]).
Definition registers_ex : list register := [speed_ex; even_ex; serial_ex].
Lemma registers_ex_ok : Forall register_ok registers_ex /\ Forall (fun r => content_small (r_content r)) registers_ex.
Proof.
  split; repeat (apply Forall_cons; [|]); try apply Forall_nil.
  - split; [apply utf8_right; reflexivity|]. split; [|exact I]. repeat constructor.
  - split; [apply utf8_right; reflexivity|]. split; [reflexivity|exact I].
  - split; [apply utf8_right; reflexivity|]. split; [|exact I]. split; [repeat constructor|vm_compute; lia].
  - vm_compute. lia.
  - exact I.
  - exact I.
Qed.
(** requests to set "even" *)
Definition even_request (x : N) : list N := [4; 101; 118; 101; 110; 11; 1; 0; x].
Definition reg_node_ex : core := core_new TransportCan KCan 4 2 (Some 11).
Definition header_ex (service : N) : svc_header := SvcH 0 3 2 service 99 11.
Definition even_with (x asked : N) : register := Register (r_name even_ex) (r_access even_ex) (CNumber U8 (VUnsigned x)) (match r_kind even_ex with Validated f _ => Validated f [CNumber U8 (VUnsigned asked)] | k => k end).
Definition run_ex (payload : list N) : res (bool * core * list register * list entry) :=
  register_request basic_registers HandlerServer reg_node_ex registers_ex (token_of (header_ex access_service)) (header_ex access_service) payload (Env 5 true PushOk).
(** 6 is accepted, 7 is not, "s" is not mutable; the responses have the flags and the present value. *)
Example C51_witness : Forall register_ok registers_ex /\ Forall (fun r => content_small (r_content r)) registers_ex /\ ~ oversized (even_request 6) /\
  (exists calls, run_ex (even_request 6) = Ok (true, reg_node_ex, [speed_ex; even_with 6 6; serial_ex], [(SendResponse (token_of (header_ex access_service)) 1000000 [0; 0; 0; 0; 0; 0; 0; 1; 11; 1; 0; 6] (Env 5 true PushOk), calls, ODone)])) /\
  (exists calls, run_ex (even_request 7) = Ok (true, reg_node_ex, [speed_ex; even_with 4 7; serial_ex], [(SendResponse (token_of (header_ex access_service)) 1000000 [0; 0; 0; 0; 0; 0; 0; 1; 11; 1; 0; 4] (Env 5 true PushOk), calls, ODone)])) /\
  (exists calls, run_ex [1; 115; 1; 2; 0; 66; 67] = Ok (true, reg_node_ex, registers_ex, [(SendResponse (token_of (header_ex access_service)) 1000000 [0; 0; 0; 0; 0; 0; 0; 2; 1; 1; 0; 65] (Env 5 true PushOk), calls, ODone)])).
Proof.
  split; [apply registers_ex_ok|]. split; [apply registers_ex_ok|]. split; [intros (X & _); discriminate X|]. split; [eexists; vm_compute; reflexivity|]. split; eexists; vm_compute; reflexivity.
Qed.
Example C51_history_witness : exists log block, accesses ServiceServer registers_ex log block /\ length log = 2%nat /\ last_response [101; 118; 101; 110] log = Some (response_of (Access true false) (VUnion 11 (VStruct [VArray [VUnsigned 8]]))).
Proof.
  eexists [([101; 118; 101; 110], VUnion 11 (VStruct [VArray [VUnsigned 9]]), _); ([101; 118; 101; 110], VUnion 11 (VStruct [VArray [VUnsigned 8]]), _)], _. split; [|split; [reflexivity|reflexivity] ].
  eapply acc_step; [eapply acc_step; [apply acc_start|vm_compute; reflexivity|vm_compute; reflexivity]|vm_compute; reflexivity|vm_compute; reflexivity].
Qed.

(** A request for an array of more than 2048 booleans, in 5 bytes, crashes every node with registers, whatever registers these are. *)
Theorem C78_request_refuted : forall R (ops : register_ops R) s n block token header e, sh_service header = access_service ->
  register_request ops s n block token header [1; 97; 3; 1; 8] e = Panic.
Proof. intros R ops s n block token header e Hs. unfold register_request. rewrite Hs, N.eqb_refl. replace (deserialize_from_bytes access_request_t [1; 97; 3; 1; 8]) with (@Panic (dres value)) by (vm_compute; reflexivity). reflexivity. Qed.
Print Assumptions C78_request_refuted.
(** These are the only requests that crash a node whose registers fit in a response and have names of at most 255 bytes. *)
Lemma list_handled R (ops : register_ops R) s n source block header payload e : c_id n = Some source -> sh_service header = list_service -> bytes_ok payload ->
  Forall (fun r => bytes_ok (name_of ops r) /\ (length (name_of ops r) <= N.to_nat 255)%nat) block ->
  exists log, register_request ops s n block (token_of header) header payload e = Ok (true, n, block, log) /\
    responded n header e list_response_t (VStruct [VStruct [VArray (map VUnsigned (match nth_error block (N.to_nat (nth 0 payload 0 + 256 * nth 1 payload 0)) with Some r => name_of ops r | None => [] end))]]) log.
Proof.
  intros Hid Hs B F. unfold register_request. rewrite Hs. change (list_service =? access_service) with false. rewrite N.eqb_refl. rewrite decode_list by assumption. cbn [bind]. set (i := nth 0 payload 0 + 256 * nth 1 payload 0).
  destruct list_response_sendable as (C & G & Bd). unfold handle_list. destruct (nth_error block (N.to_nat i)) as [r|] eqn:E.
  - destruct (nth_error_Forall _ _ _ _ F E) as (Bn & Ln). rewrite (proj2 (Nat.leb_le (length (name_of ops r)) (N.to_nat 256))) by lia. rewrite (proj2 (Nat.leb_le _ _) Ln). cbn [bind].
    destruct (respond_right n header list_response_t _ e source Hid C G Bd (list_response_fits _ Bn Ln)) as (y & Ey & Ry). rewrite Ey. cbn [bind fst snd]. exists [y]. split; [reflexivity|exact Ry].
  - cbn [bind]. destruct (respond_right n header list_response_t (VStruct [VStruct [VArray (map VUnsigned [])]]) e source Hid C G Bd (list_response_fits [] ltac:(constructor) ltac:(cbn [length]; lia))) as (y & Ey & Ry).
    cbn [map] in Ey. rewrite Ey. cbn [bind fst snd]. exists [y]. split; [reflexivity|exact Ry].
Qed.
Theorem C78_no_panic_partial : forall s n source block header payload e, c_id n = Some source -> bytes_ok payload ->
  Forall register_ok block -> Forall (fun r => content_small (r_content r)) block -> Forall (fun r => bytes_ok (r_name r) /\ (length (r_name r) <= N.to_nat 255)%nat) block ->
  (register_request basic_registers s n block (token_of header) header payload e = Panic <-> sh_service header = access_service /\ oversized payload).
Proof.
  intros s n source block header payload e Hid B F S Nm. destruct (N.eq_dec (sh_service header) access_service) as [Ha|Ha].
  - destruct (decode_access payload B) as [(O & E)|(O & _)].
    + split; [tauto|]. intros _. unfold register_request. rewrite Ha, N.eqb_refl, E. reflexivity.
    + destruct (C51_request_partial s n source block header payload e Hid Ha B F S O) as (handled & block' & log & E & _). rewrite E. split; [discriminate|]. intros (_ & X). contradiction.
  - split; [|tauto]. destruct (N.eq_dec (sh_service header) list_service) as [Hl|Hl].
    + destruct (list_handled register basic_registers s n source block header payload e Hid Hl B Nm) as (log & E & _). rewrite E. discriminate.
    + rewrite C51_others by assumption. discriminate.
Qed.
Print Assumptions C78_no_panic_partial.
(** A register with more than 2048 booleans cannot be read: ... *)
Theorem C78_bools_refuted : exists block, Forall register_ok block /\ (exists a bs, block = [Register [97] a (CBools bs) Simple]) /\
  forall s n header e, sh_service header = access_service -> register_request basic_registers s n block (token_of header) header [1; 97; 0] e = Panic.
Proof.
  exists [Register [97] (Access true true) (CBools (repeat false (N.to_nat 2049))) Simple]. split; [constructor; [split; [(apply utf8_right; reflexivity)|split; exact I]|constructor]|]. split; [do 2 eexists; reflexivity|].
  intros s n header e Hs. unfold register_request. rewrite Hs, N.eqb_refl.
  replace (deserialize_from_bytes access_request_t [1; 97; 0]) with (Ok (DOk (VStruct [VStruct [VArray [VUnsigned 97]]; VUnion 0 (VStruct [])]))) by (vm_compute; reflexivity). cbn [bind map unsigned_of].
  destruct s; reflexivity.
Qed.
Print Assumptions C78_bools_refuted.

(** Names are compared as text: [str::from_utf8] as modelled succeeds exactly for UTF-8. *)
Theorem C51_utf8 : forall bytes, utf8 bytes = true <-> is_text bytes.
Proof. exact utf8_right. Qed.
Print Assumptions C51_utf8.
Example C51_utf8_witness : utf8 [0xe2; 0x82; 0xac; 0xf0; 0x9d; 0x84; 0x9e; 65; 0xc3; 0xa4] = true /\ utf8_bytes 0x20ac = [0xe2; 0x82; 0xac] /\ utf8 [0xed; 0xa0; 0x80] = false /\ utf8 [0xc0; 0x80] = false.
Proof. repeat split; reflexivity. Qed.

(** * C79: the list of registers *)

(** The response to a request for index [i] has the name of register [i], or no name after the last one, for any implementation of
    registers.  Missing: names of 256 bytes. *)
Theorem C79_list_partial : forall R (ops : register_ops R) s n source block header payload e, c_id n = Some source -> sh_service header = list_service -> bytes_ok payload ->
  Forall (fun r => bytes_ok (name_of ops r) /\ (length (name_of ops r) <= N.to_nat 255)%nat) block ->
  exists log, register_request ops s n block (token_of header) header payload e = Ok (true, n, block, log) /\
    forall i, i = N.to_nat (nth 0 payload 0 + 256 * nth 1 payload 0) ->
      responded n header e list_response_t (VStruct [VStruct [VArray (map VUnsigned (nth i (map (name_of ops) block) []))]]) log.
Proof.
  intros R ops s n source block header payload e Hid Hs B F. destruct (list_handled R ops s n source block header payload e Hid Hs B F) as (log & E & X). exists log. split; [exact E|]. intros i ->.
  assert (K : forall i, nth i (map (name_of ops) block) [] = match nth_error block i with Some r => name_of ops r | None => [] end).
  { clear. induction block as [|r block IH]; intros [|i]; try reflexivity. cbn [map nth nth_error]. apply IH. }
  rewrite K. exact X.
Qed.
Print Assumptions C79_list_partial.
Example C79_witness : Forall (fun r => bytes_ok (name_of basic_registers r) /\ (length (name_of basic_registers r) <= N.to_nat 255)%nat) registers_ex /\
  (exists calls, register_request basic_registers ServiceServer reg_node_ex registers_ex (token_of (header_ex list_service)) (header_ex list_service) [1; 0] (Env 5 true PushOk) =
     Ok (true, reg_node_ex, registers_ex, [(SendResponse (token_of (header_ex list_service)) 1000000 [4; 101; 118; 101; 110] (Env 5 true PushOk), calls, ODone)])) /\
  (exists calls, register_request basic_registers ServiceServer reg_node_ex registers_ex (token_of (header_ex list_service)) (header_ex list_service) [3; 0] (Env 5 true PushOk) =
     Ok (true, reg_node_ex, registers_ex, [(SendResponse (token_of (header_ex list_service)) 1000000 [0] (Env 5 true PushOk), calls, ODone)])).
Proof.
  split; [|split; eexists; vm_compute; reflexivity]. repeat (apply Forall_cons; [split; [repeat constructor|vm_compute; lia]|]). constructor.
Qed.
(** [FixedStringRegister::new] accepts names of 256 bytes, but a node with such a register panics when it is asked for its name. *)
Theorem C79_long_name_refuted : exists name r, length name = N.to_nat 256 /\ fixed_string_new name [] = Some r /\
  forall s n header e, sh_service header = list_service -> register_request basic_registers s n [r] (token_of header) header [0; 0] e = Panic.
Proof.
  exists (repeat 97 (N.to_nat 256)). eexists. split; [apply repeat_length|]. split; [vm_compute; reflexivity|]. intros s n header e Hs. unfold register_request. rewrite Hs. change (list_service =? access_service) with false. rewrite N.eqb_refl, decode_list by (repeat constructor).
  cbn [bind]. change (nth 0 [0; 0] 0 + 256 * nth 1 [0; 0] 0) with 0. reflexivity.
Qed.
Print Assumptions C79_long_name_refuted.
(** ... and so for every name of more than 255 bytes, in any implementation of registers. *)
Theorem C79_long_names_refuted : forall R (ops : register_ops R) s n block header payload e r, sh_service header = list_service -> bytes_ok payload ->
  nth_error block (N.to_nat (nth 0 payload 0 + 256 * nth 1 payload 0)) = Some r -> (N.to_nat 255 < length (name_of ops r))%nat ->
  register_request ops s n block (token_of header) header payload e = Panic.
Proof.
  intros R ops s n block header payload e r Hs B Hr L. unfold register_request. rewrite Hs. change (list_service =? access_service) with false. rewrite N.eqb_refl, decode_list by assumption.
  cbn [bind]. unfold handle_list. rewrite Hr. cbv zeta. rewrite (proj2 (Nat.leb_gt _ _)); [reflexivity|]. destruct (length (name_of ops r) <=? N.to_nat 256)%nat eqn:E; [exact L|]. apply Nat.leb_gt in E. rewrite firstn_length. lia.
Qed.
Print Assumptions C79_long_names_refuted.
Example C79_long_names_witness : nth_error [Register (repeat 97 (N.to_nat 300)) (Access true true) (CBools []) Simple] (N.to_nat (nth 0 [0; 0] 0 + 256 * nth 1 [0; 0] 0)) = Some (Register (repeat 97 (N.to_nat 300)) (Access true true) (CBools []) Simple) /\
  (N.to_nat 255 < length (repeat 97%N (N.to_nat 300)))%nat.
Proof. split; [reflexivity|]. rewrite repeat_length. lia. Qed.

(** * C80: writing back *)

(** A mutable register without a validator accepts the value that it reports, and keeps it.  Missing: arrays of numbers of more than
    256 bytes. *)
Lemma value_takes c : content_small c -> takes c (value_of c) /\ value_of (with_value c (value_of c)) = value_of c.
Proof.
  intro S. unfold takes. destruct c as [x v|x vs|b|b|b|bs]; cbn [tag_of value_of items_of array_items with_value hd content_small] in *.
  - split; [split; reflexivity|reflexivity].
  - rewrite firstn_all2 by assumption. split; [split; reflexivity|rewrite firstn_all2 by assumption; reflexivity].
  - split; [split; reflexivity|reflexivity].
  - split; [split; reflexivity|reflexivity].
  - split; [split; reflexivity|reflexivity].
  - split; [split; [reflexivity|apply map_length]|rewrite map_boolean; reflexivity].
Qed.
Theorem C80_write_back_partial : forall s block i r, Forall register_ok block -> first_named r_name (r_name r) block i r -> r_kind r = Simple -> mutable (r_access r) = true -> content_small (r_content r) ->
  exists block', handle_access basic_registers s block (r_name r) (value_of (r_content r)) = Ok (block', response_of (r_access r) (value_of (r_content r))) /\
    exists r', only_changed block block' i r' /\ value_of (r_content r') = value_of (r_content r).
Proof.
  intros s block i r F Hf Hk M S. pose proof Hf as (H1 & _). pose proof (nth_error_Forall _ _ _ _ F H1) as O. pose proof O as (U & C & _). pose proof (value_of_fits _ C S) as Fv.
  assert (A : accepted r (value_of (r_content r))) by (split; [assumption|]; split; [apply value_takes, S|unfold approved; rewrite Hk; exact I]).
  assert (X : exists x, handle_access basic_registers s block (r_name r) (value_of (r_content r)) = Ok x).
  { unfold handle_access. rewrite (proj2 (utf8_right _) U), (proj2 (by_name_first basic_registers (r_name r) block i)) by (exists r; exact Hf). rewrite H1. destruct (access_register_right s r _ O Fv) as (r' & Ea & O' & _ & _ & _ & _ & Sm). rewrite Ea, (register_read_small r' O' (Sm S)). eexists. reflexivity. }
  destruct X as ((block' & response) & E). destruct (C51_access _ _ _ _ _ _ F Fv E) as ((_ & R) & _). destruct (R i r Hf) as (r' & Ch & _ & _ & -> & W & _). exists block'. rewrite E, (W A). split; [reflexivity|]. exists r'. split; [exact Ch|apply (W A)].
Qed.
Print Assumptions C80_write_back_partial.
Example C80_witness : Forall register_ok registers_ex /\ first_named r_name (r_name speed_ex) registers_ex 0 speed_ex /\ r_kind speed_ex = Simple /\ mutable (r_access speed_ex) = true /\ content_small (r_content speed_ex).
Proof. split; [apply registers_ex_ok|]. split; [split; [reflexivity|]; split; [reflexivity|]; intros j x Hj; lia|]. split; [reflexivity|]. split; [reflexivity|]. vm_compute. lia. Qed.
(** A mutable register with 33 numbers of 64 bits takes no value at all. *)
Theorem C80_long_refuted : exists r, register_ok r /\ r_kind r = Simple /\ mutable (r_access r) = true /\
  forall s v block' response, fits value_t v = true -> handle_access basic_registers s [r] (r_name r) v = Ok (block', response) -> block' = [r].
Proof.
  exists (Register [97] (Access true true) (CNumbers U64 (repeat (VUnsigned 0) 33)) Simple). split; [split; [apply utf8_right; reflexivity|]; split; [repeat constructor|exact I]|]. split; [reflexivity|]. split; [reflexivity|].
  intros s v block' response Fv. unfold handle_access. change (utf8 (r_name _)) with true. cbn [by_name r_name basic_registers name_of]. change (bytes_eqb [97] [97]) with true. cbv iota. cbn [nth_error].
  assert (W : content_write (CNumbers U64 (repeat (VUnsigned 0) 33)) v = None).
  { destruct (content_write_right (CNumbers U64 (repeat (VUnsigned 0) 33)) v) as [((T & L) & _)|(_ & E)]; [repeat constructor|exact Fv| |exact E]. exfalso. apply value_cases in Fv. cbn [value_of tag_of] in T. rewrite repeat_length in L.
    destruct Fv as [| | | |y ws Lw _]; cbn [tag_of] in T; try discriminate T. cbn [items_of array_items] in L. rewrite <- element_tag_prim in T. apply element_tags in T as ->. change (room U64) with 32%nat in Lw. lia. }
  unfold access_register. cbn [access_of read_of write_of basic_registers r_access mutable]. destruct s; cbn [andb].
  - destruct (negb (is_empty v)); cbn [register_write]; rewrite ?W; cbn [bind fst snd]; (destruct (register_read _); cbn [bind fst snd put_at]; [|discriminate]); intro E; injection E as <- _; reflexivity.
  - cbn [register_write]. rewrite W. cbn [bind fst snd]. (destruct (register_read _); cbn [bind fst snd put_at]; [|discriminate]). intro E. injection E as <- _. reflexivity.
Qed.
Print Assumptions C80_long_refuted.
