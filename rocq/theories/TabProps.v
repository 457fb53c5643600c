(** Property theorems for canadensis_core/src/subscription.rs and session.rs. *)
From Verif Require Import Base CoreModel TabModel TabSpec TabProofs.

(** C53: after every history of calls, looking up any port gives what the latest call that named this port left:
    its subscription if that was a successful subscribe, nothing otherwise. *)
Theorem C53_subscription_table : forall (S : Type) (h : list (sub_event S)) t p,
  subs_hist h t -> subs_find p t = sub_latest p h.
Proof. intros S h t p H. apply (subs_hist_spec h t H). Qed.
Print Assumptions C53_subscription_table.

(** C53: there is at most one subscription per port, and the published lists of subjects and services contain exactly
    the subscribed ones. *)
Theorem C53_one_subscription_per_port : forall (S : Type) (h : list (sub_event S)) t,
  subs_hist h t ->
  NoDup (subs_subscribers t) /\ NoDup (subs_servers t) /\ NoDup (map fst (sb_resp t)) /\
  (forall k, In k (subs_subscribers t) <-> sub_latest (PMsg k) h <> None) /\
  (forall k, In k (subs_servers t) <-> sub_latest (PReq k) h <> None).
Proof. exact @subs_lists. Qed.
Print Assumptions C53_one_subscription_per_port.

(** C53 as listed holds for every history in which no subscribe ran out of memory.  (Missing: see the refutation.) *)
Theorem C53_latest_subscription_partial : forall (S : Type) (h : list (sub_event S)) t p,
  subs_hist h t -> (forall p s, ~ In (ESub p s false) h) -> subs_find p t = sub_latest_ok p h.
Proof. intros S h t p H Hok. rewrite <- sub_latest_all_ok by assumption. apply (subs_hist_spec h t H). Qed.
Print Assumptions C53_latest_subscription_partial.

(** C53 as listed is false when memory runs out: a subscribe that fails also drops the earlier subscription. *)
Theorem C53_latest_subscription_refuted : exists (h : list (sub_event N)) t p,
  subs_hist h t /\ sub_latest_ok p h = Some 10 /\ subs_find p t = None.
Proof.
  exists [ESub (PMsg 3) 20 false; ESub (PMsg 3) 10 true]. eexists. exists (PMsg 3). split; [|split; [reflexivity|]].
  - eapply SH_sub with (alloc := false); [eapply SH_sub with (alloc := true); [apply SH_new|reflexivity]|reflexivity].
  - reflexivity.
Qed.
Print Assumptions C53_latest_subscription_refuted.

Example C53_witness : exists t : subs N,
  subs_hist [EUnsub (PMsg 1); ESub (PReq 1) 30 true; ESub (PMsg 2) 20 true; ESub (PMsg 1) 10 true] t /\
  subs_find (PMsg 2) t = Some 20 /\ subs_find (PMsg 1) t = None /\ subs_find (PReq 1) t = Some 30.
Proof.
  eexists. split.
  - apply SH_unsub. eapply SH_sub with (alloc := true); [|reflexivity].
    eapply SH_sub with (alloc := true); [|reflexivity].
    eapply SH_sub with (alloc := true); [apply SH_new|reflexivity].
  - repeat split.
Qed.

(** C54: the fixed-capacity linear map behaves as a finite map: for every history of calls a lookup returns the value
    of the latest effective insert. *)
Theorem C54_linear_map : forall (S : Type) cap (h : list (tab_event S)) t k,
  lm_hist cap h t -> lm_get k t = tab_latest k h.
Proof. intros S cap h t k H. apply (lm_hist_spec cap h t H). Qed.
Print Assumptions C54_linear_map.

(** C54: an insert into the linear map fails exactly when the node has no entry and [cap] other nodes have one. *)
Theorem C54_linear_map_full : forall (S : Type) cap (h : list (tab_event S)) t k s,
  lm_hist cap h t ->
  (lm_insert cap k s t = None <-> tab_latest k h = None /\ holds_keys cap (fun k => tab_latest k h)).
Proof. intros S cap h t k s H. apply lm_fails_iff. assumption. Qed.
Print Assumptions C54_linear_map_full.

(** C54: the array table behaves as a finite map on the node IDs it has slots for, *)
Theorem C54_array : forall (S : Type) c (h : list (tab_event S)) t k,
  arr_hist c h t -> k < N.of_nat c -> arr_get k t = Ok (tab_latest k h).
Proof. intros S c h t k H Hk. apply (arr_hist_spec c h t H). apply N.ltb_lt. assumption. Qed.
Print Assumptions C54_array.

(** and no call on it panics exactly for those node IDs. *)
Theorem C54_array_total : forall (S : Type) c (h : list (tab_event S)) t k s,
  arr_hist c h t ->
  (arr_insert k s t <> Panic <-> k < N.of_nat c) /\ (arr_remove k t <> Panic <-> k < N.of_nat c) /\
  (arr_get_or_insert k s t <> Panic <-> k < N.of_nat c) /\ (arr_get k t <> Panic <-> k < N.of_nat c).
Proof. exact @arr_total. Qed.
Print Assumptions C54_array_total.

(** C54: the dynamic map behaves as a finite map. *)
Theorem C54_dynamic_map : forall (S : Type) (h : list (tab_event S)) t k,
  bt_hist h t -> lookup k t = tab_latest k h.
Proof. intros S h t k H. apply (bt_hist_spec h t H). Qed.
Print Assumptions C54_dynamic_map.

Example C54_witness :
  lm_hist 2 [TInsert 9 3 false; TRemove 5; TInsert 8 2 true; TInsert 7 1 true] [(7, 1); (8, 2)] /\
  lm_insert 2 9 3 [(7, 1); (8, 2)] = None /\
  arr_hist 4 [TInsert 3 1 true] [None; None; None; Some 1] /\
  bt_hist [TRemove 3; TInsert 3 1 true; TInsert 2 5 true] [(2, 5)].
Proof.
  repeat split.
  - exact (LH_insert 2 _ _ 9 3 (LH_remove 2 _ _ 5 (LH_insert 2 _ _ 8 2 (LH_insert 2 _ _ 7 1 (LH_new 2))))).
  - eapply AH_insert; [apply AH_new|reflexivity].
  - exact (BH_remove _ _ 3 (BH_insert _ _ 3 1 (BH_insert _ _ 2 5 BH_new))).
Qed.
