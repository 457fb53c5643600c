(** C135: the command-line tool for filters *)
From Verif Require Import Base TextModel FilterModel FilterProofs FilterToolModel FilterToolSpec FilterToolProofs.
Open Scope N_scope.

(** Given a number of filters and identifiers, the tool succeeds and prints a table of as many filters as allowed (or needed), one of which
    lets through each identifier given.  If there are enough filters, each identifier gets its own.  Missing: no filters at all. *)
Theorem C135_table_partial : forall args max ids, arguments args max ids -> 1 <= max ->
  exists out filters, tool_run args = Ok (Exit 0 out None) /\ table filters out /\ N.of_nat (length filters) = N.min (N.of_nat (length ids)) max /\
    (forall id, In id ids -> exists fid mask, In (fid, mask) filters /\ N.land mask id = N.land mask fid) /\
    (N.of_nat (length ids) <= max -> filters = map (fun id => (id, 0x1fffffff)) ids).
Proof.
  intros args max ids H Hm. destruct (tool_right args max ids H Hm) as (out & l & E & T & L & A & X). exists out, (map (fun f => (filter_id f, fl_mask f)) l). split; [exact E|]. split; [exact T|]. split; [rewrite map_length; exact L|]. split.
  - intros id I. destruct (A id I) as (f & F & Ac). exists (filter_id f), (fl_mask f). split; [apply (in_map (fun f => (filter_id f, fl_mask f)) l f F)|]. apply N.eqb_eq, Ac.
  - intro B. rewrite (X B), map_map. destruct H as [m max ts ids _ F]. clear - F. induction F as [|t id ts ids (ds & _ & _ & Hid) _ IH]; [reflexivity|]. cbn [map]. f_equal; [|exact IH].
    unfold filter_exact, filter_new, filter_id. cbn [fl_mask fl_idv]. f_equal. rewrite N.land_lor_distr_l. change (N.land VALID_BIT EXTENDED_ID_MASK) with 0. rewrite N.lor_0_r. change EXTENDED_ID_MASK with (N.ones 29). rewrite !N.land_ones, N.mod_mod by discriminate. apply N.mod_small, Hid.
Qed.
Print Assumptions C135_table_partial.

(** It succeeds for no other arguments, and prints nothing then; it never panics *)
Theorem C135_arguments : forall args, exists status out e, tool_run args = Ok (Exit status out e) /\
  (status = 0 <-> exists max ids, arguments args max ids) /\ (status = 0 <-> e = None) /\ (status <> 0 -> status = 255 /\ out = []).
Proof.
  intro args. unfold tool_run. destruct (tool_args args) as [e|(max & ids)] eqn:E.
  - exists 255, [], (Some e). split; [reflexivity|]. split; [|split; [split; discriminate|auto] ]. split; [discriminate|]. intros (max & ids & H). apply args_right in H. rewrite H in E. discriminate E.
  - destruct (optimize (map filter_exact ids) (N.to_nat max)) as [l|] eqn:Eo.
    + exists 0, (print_filters l), None. split; [reflexivity|]. split; [|split; [split; reflexivity|intro H; destruct (H eq_refl)] ]. split; [|reflexivity]. intros _. exists max, ids. apply args_right, E.
    + exfalso. destruct (N.eq_dec max 0) as [->|Hm]; [discriminate Eo|]. destruct (optimize_spec (map filter_exact ids) (N.to_nat max) ltac:(lia) (valid_exact ids)) as (l & El & _). rewrite El in Eo. discriminate Eo.
Qed.
Print Assumptions C135_arguments.

(** With zero filters it also succeeds, with an empty table: no identifier is let through *)
Theorem C135_zero_refuted : forall args ids, arguments args 0 ids -> exists out, tool_run args = Ok (Exit 0 out None) /\ table [] out.
Proof.
  intros args ids H. unfold tool_run. rewrite (proj2 (args_right args 0 ids) H). exists header. split; [reflexivity|]. exists []. split; [reflexivity|constructor].
Qed.
Print Assumptions C135_zero_refuted.

(** [optimize_filters 2 0x107d552a 0x11733775 0x+136B957b]; a plus sign is allowed behind the prefix *)
Definition ex_args : list (list N) :=
  [[50]; [48; 120; 49; 48; 55; 100; 53; 53; 50; 97]; [48; 120; 49; 49; 55; 51; 51; 55; 55; 53]; [48; 120; 43; 49; 51; 54; 66; 57; 53; 55; 98]].
Example C135_witness : arguments ex_args 2 [0x107d552a; 0x11733775; 0x136b957b] /\ arguments [[48]; [48; 120; 49]] 0 [1] /\
  (forall max ids, ~ arguments [[49]; [49; 50; 51]] max ids) /\
  tool_run [[49]; [48; 120; 97]; [48; 120; 98]] = Ok (Exit 0 (header ++
    [48; 120; 48; 48; 48; 48; 48; 48; 48; 97; 32; 32; 32; 48; 120; 49; 102; 102; 102; 102; 102; 102; 101; 10]) None).
Proof.
  split; [apply args_right; vm_compute; reflexivity|]. split; [apply args_right; vm_compute; reflexivity|]. split; [|vm_compute; reflexivity].
  intros max ids H. apply args_right in H. vm_compute in H. discriminate H.
Qed.
