(** C52, C81-C85: plug-and-play node ID allocation. *)
From Verif Require Import Base CoreModel NodeModel NodeSpec NodeProofs EncModel GenModel DataTypes BasicModel BasicSpec PnpModel PnpSpec PnpProofs.
Ltac Zify.zify_post_hook ::= Z.div_mod_to_equations.

(** * C52: node IDs handed out by the server *)

(** Exactly what the server answers to an allocation message, and how its table changes. *)
Theorem C52_answer : forall t n0 h l n header b e v w o, server_hist t n0 h l n -> Forall server_op_ok (map fst h) -> bytes_ok b ->
  mh_subject header = allocation_subject v -> reading v b = Some (w, o) ->
  exists x l' n' es, server_message l n header b e = Ok (true, l', n', es) /\ picks w l x l' /\
    match x with Some id => answers v w id es /\ id <= greatest_node_id t | None => es = [] end.
Proof.
  change greatest_node_id with max_node_id. intros t n0 h l n header b e v w o H F B S R. destruct (server_hist_inv _ _ _ _ _ H F) as (L & T). destruct (server_message_right l n header b e B ltac:(rewrite T; lia)) as [(v' & w' & o' & x & l' & n' & es & S' & R' & E & P & _ & A)|(N & _)].
  - assert (v' = v) as -> by (destruct v, v'; try reflexivity; rewrite S in S'; discriminate S'). rewrite R in R'. injection R' as <- <-. exists x, l', n', es. rewrite T in A. auto.
  - destruct (N v w o S R).
Qed.
Print Assumptions C52_answer.

Lemma owner_fresh h id u es : owner h id = None -> owner ((SAssign id u, es) :: h) id = Some u.
Proof. intro H. cbn [owner]. rewrite H, N.eqb_refl. reflexivity. Qed.
Lemma owner_grows h o es id u : owner h id = Some u -> owner ((o, es) :: h) id = Some u.
Proof. intro H. destruct o; cbn [owner]; rewrite H; reflexivity. Qed.
Lemma known_table t n0 h l n : server_hist t n0 h l n -> Forall server_op_ok (map fst h) -> all_known h ->
  forall i, (i < length l)%nat -> nth_error l i = Some (match owner h (N.of_nat i) with Some u => Assigned u | None => Unassigned end).
Proof.
  induction 1 as [T|h l n o l' n' es H IH E]; cbn [map fst all_known]; intros F K i Hi.
  - cbn [owner]. unfold table_new in *. rewrite repeat_length in Hi. rewrite nth_error_repeat by exact Hi. reflexivity.
  - apply Forall_cons_iff in F as (Fo & F). destruct K as (Ko & K). specialize (IH F K). destruct (server_hist_inv _ _ _ _ _ H F) as (L & T). destruct o as [id u|header b e]; cbn [server_step server_op_ok] in *.
    + destruct (server_assign l id u) as [l1|] eqn:A; [|discriminate]. cbn [bind] in E. injection E as <- <- <-. apply assign_same in A as (A & B). rewrite A in Hi. rewrite B, IH by exact Hi. cbn [owner]. destruct (Nat.eqb_spec i (N.to_nat id)) as [->|Ni].
      * rewrite N2Nat.id, N.eqb_refl. destruct (owner h id); reflexivity.
      * rewrite (proj2 (N.eqb_neq _ _)) by lia. destruct (owner h (N.of_nat i)); reflexivity.
    + cbn [owner]. destruct (server_message_right l n header b e Fo ltac:(rewrite T; lia)) as [(v & w & o & x & l1 & n1 & es1 & S & R & Em & P & T1 & _)|(_ & [Em|(id & S & So & Em)])]; rewrite Em in E; cbn [bind] in E.
      * injection E as <- <- <-. destruct (proj1 Ko v w o S R) as (id & u & Ho & Hu).
        assert (Hid : nth_error l (N.to_nat id) = Some (Assigned u)).
        { destruct (Nat.lt_ge_cases (N.to_nat id) (length l)) as [Hl|Hl]; [rewrite (IH _ Hl), N2Nat.id, Ho; reflexivity|]. exfalso. clear - H Ho Hl F. revert Ho Hl. induction H as [T|h l n o l' n' es H IH E]; cbn [owner map fst] in *; [discriminate|]. apply Forall_cons_iff in F as (Fo & F). specialize (IH F). destruct (server_hist_inv _ _ _ _ _ H F) as (L & T).
          assert (L' : length l' = length l). { assert (J := server_hist_inv _ _ _ _ _ (sv_step _ _ _ _ _ _ _ _ _ H E) (Forall_cons _ Fo F)). lia. } rewrite L'. destruct o as [i x|]; [|exact IH]. destruct (owner h id) as [y|]; [exact IH|]. destruct (N.eqb_spec i id) as [->|]; [|discriminate]. intros _ Hl. cbn [server_step] in E. unfold server_assign in E. rewrite (proj2 (nth_error_None _ _) Hl) in E. discriminate. }
        destruct P as [j a Hj Ha _|k l2 Hn _ _ _ _ _|Hn _].
        -- apply IH. exact Hi.
        -- destruct (Hn (Assigned u)); [eapply nth_error_In, Hid|exact Hu].
        -- apply IH. exact Hi.
      * injection E as <- <- <-. apply IH. exact Hi.
      * destruct (handle_heartbeat l id) as [l1|] eqn:A; [|discriminate]. cbn [bind] in E. injection E as <- <- <-. apply heartbeat_same in A as (A & B). rewrite A in Hi. rewrite B. destruct (Nat.eqb_spec i (N.to_nat id)) as [->|Ni]; [|apply IH, Hi]. rewrite IH by exact Hi. rewrite N2Nat.id. pose proof (proj2 Ko id S So) as X. destruct (owner h id); [reflexivity|congruence].
Qed.
Lemma owners_differ h : all_known h -> forall id id' u u', owner h id = Some u -> owner h id' = Some u' -> crc64we u mod 2 ^ 48 = crc64we u' mod 2 ^ 48 -> id = id'.
Proof.
  induction h as [|[o es] h IH]; cbn [all_known owner]; [intros _ id id' u u' X; discriminate X|]. intros (Ko & K) id id' u u'. specialize (IH K). destruct o as [i x|]; [|apply IH]. cbn [known] in Ko.
  destruct (owner h id) as [y|] eqn:E1, (owner h id') as [y'|] eqn:E2; intros H1 H2 Hc.
  - injection H1 as <-. injection H2 as <-. exact (IH id id' y y' E1 E2 Hc).
  - injection H1 as <-. destruct (i =? id'); [|discriminate]. injection H2 as <-. destruct (Ko id y E1 Hc).
  - injection H2 as <-. destruct (i =? id); [|discriminate]. injection H1 as <-. symmetry in Hc. destruct (Ko id' y' E2 Hc).
  - destruct (N.eqb_spec i id) as [->|]; [|discriminate]. destruct (N.eqb_spec id id') as [->|]; [|discriminate]. reflexivity.
Qed.
(** While every node that asks or is alive was assigned a node ID by the application, the server tells each node the node ID that it was
    assigned, always the same one, and tells two nodes different ones. *)
Theorem C52_assigned_partial : forall t n0 h l n header b e v w o, server_hist t n0 h l n -> Forall server_op_ok (map fst h) -> all_known h ->
  bytes_ok b -> mh_subject header = allocation_subject v -> reading v b = Some (w, o) -> known h (SMessage header b e) ->
  exists id u n' es, server_message l n header b e = Ok (true, l, n', es) /\ answers v w id es /\ owner h id = Some u /\ is_who u w /\
    (forall id' u', owner h id' = Some u' -> is_who u' w -> id' = id).
Proof.
  intros t n0 h l n header b e v w o H F K B S R Ko. destruct (C52_answer _ _ _ _ _ header b e v w o H F B S R) as (x & l' & n' & es & E & P & A). destruct (proj1 Ko v w o S R) as (id & u & Ho & Hu).
  pose proof (known_table _ _ _ _ _ H F K) as Tb. assert (Same : forall id' u', owner h id' = Some u' -> is_who u' w -> forall id'' u'', owner h id'' = Some u'' -> is_who u'' w -> id' = id'').
  { intros id1 u1 H1 I1 id2 u2 H2 I2. apply (owners_differ h K id1 id2 u1 u2 H1 H2). destruct w; cbn [is_who] in I1, I2; congruence. }
  assert (Hid : nth_error l (N.to_nat id) = Some (Assigned u)).
  { destruct (Nat.lt_ge_cases (N.to_nat id) (length l)) as [Hl|Hl]; [rewrite (Tb _ Hl), N2Nat.id, Ho; reflexivity|]. exfalso. clear - H Ho Hl F. revert Ho Hl. induction H as [T|h l n o l' n' es H IH E]; cbn [owner map fst] in *; [discriminate|]. apply Forall_cons_iff in F as (Fo & F). specialize (IH F).
    assert (L' : length l' = length l). { assert (J := server_hist_inv _ _ _ _ _ (sv_step _ _ _ _ _ _ _ _ _ H E) (Forall_cons _ Fo F)). pose proof (server_hist_inv _ _ _ _ _ H F). lia. } rewrite L'. destruct o as [i x|]; [|exact IH]. destruct (owner h id) as [y|]; [exact IH|]. destruct (N.eqb_spec i id) as [->|]; [|discriminate]. intros _ Hl. cbn [server_step] in E. unfold server_assign in E. rewrite (proj2 (nth_error_None _ _) Hl) in E. discriminate. }
  destruct P as [i a Hi Ha Hl|k l2 Hn _ _ _ _ _|Hn _].
  - assert (Li : (i < length l)%nat) by (apply nth_error_Some; congruence). rewrite (Tb i Li) in Hi. injection Hi as <-. destruct (owner h (N.of_nat i)) as [u'|] eqn:Ho'; [|destruct Ha]. exists (N.of_nat i), u', n', es. split; [exact E|]. split; [apply A|]. split; [exact Ho'|]. split; [exact Ha|].
    intros id' u'' H1 H2. eapply Same; eassumption.
  - destruct (Hn (Assigned u)); [eapply nth_error_In, Hid|exact Hu].
  - destruct (Hn (Assigned u)); [eapply nth_error_In, Hid|exact Hu].
Qed.
Print Assumptions C52_assigned_partial.

(** The code violates the property: a server to which nothing was assigned, and which has heard no heartbeat, gives node ID 0 to everyone. *)
Theorem C52_fresh_refuted : forall t n0 h l n header b e v w, server_hist t n0 h l n -> Forall server_op_ok (map fst h) ->
  Forall (fun o => exists v' w', asks v' w' o) (map fst h) ->
  bytes_ok b -> asks v w (SMessage header b e) ->
  exists l' n' es, server_message l n header b e = Ok (true, l', n', es) /\ answers v w 0 es.
Proof.
  intros t n0 h l n header b e v w H F A B (S & o & R).
  assert (I : l = table_new t \/ nth_error l 0 = Some Reserved).
  { clear S R B w v o header b e. induction H as [T|h l n op l' n' es H IH E]; [left; reflexivity|]. cbn [map fst] in *. apply Forall_cons_iff in F as (Fo & F). apply Forall_cons_iff in A as (Ao & A). specialize (IH F A). destruct Ao as (v & w & Ao). destruct op as [|header b e]; [destruct Ao|]. cbn [asks server_step server_op_ok] in *. destruct Ao as (S & o & R).
    destruct (C52_answer _ _ _ _ _ header b e v w o H F Fo S R) as (x & l1 & n1 & es1 & Em & P & _). rewrite Em in E. cbn [bind] in E. injection E as <- <- <-. destruct IH as [->|I].
    - right. destruct P as [i a Hi Ha _|k l2 _ Hk Hl L2 H2 _|_ Hn].
      + apply nth_error_In, repeat_spec in Hi. subst a. destruct Ha.
      + assert (k = length (table_new t) - 1)%nat as ->.
        { destruct (Nat.eq_dec k (length (table_new t) - 1)) as [|Nk]; [assumption|]. assert (Lk : (k < length (table_new t))%nat) by (apply nth_error_Some; congruence). exfalso. eapply (Hl (length (table_new t) - 1)%nat Unassigned); [lia| |reflexivity]. unfold table_new in *. rewrite nth_error_repeat; [reflexivity|]. rewrite repeat_length in *. lia. }
        rewrite <- H2. f_equal. lia.
      + exfalso. apply (Hn Unassigned); [|reflexivity]. unfold table_new. destruct t; [change (N.to_nat (max_node_id TransportCan)) with (Datatypes.S 126)|replace (N.to_nat (max_node_id Transport64)) with (Datatypes.S (N.to_nat 65533)) by (change (max_node_id Transport64) with 65534; lia)]; left; reflexivity.
    - destruct P as [i a Hi Ha Hl|k l2 Hn _ _ _ _ _|_ Hn].
      + right. exact I.
      + destruct (Hn Reserved); [eapply nth_error_In, I|exact Logic.I].
      + right. exact I. }
  destruct (C52_answer _ _ _ _ _ header b e v w o H F B S R) as (x & l1 & n1 & es1 & Em & P & Ax). exists l1, n1, es1. split; [exact Em|]. destruct I as [->|I].
  - destruct P as [i a Hi Ha _|k l2 _ Hk Hl L2 H2 _|_ Hn].
    + apply nth_error_In, repeat_spec in Hi. subst a. destruct Ha.
    + assert (k = length (table_new t) - 1)%nat as ->.
      { destruct (Nat.eq_dec k (length (table_new t) - 1)) as [|Nk]; [assumption|]. assert (Lk : (k < length (table_new t))%nat) by (apply nth_error_Some; congruence). exfalso. eapply (Hl (length (table_new t) - 1)%nat Unassigned); [lia| |reflexivity]. unfold table_new in *. rewrite nth_error_repeat; [reflexivity|]. rewrite repeat_length in *. lia. }
      destruct Ax as (Ax & _). replace (N.of_nat (length (table_new t) - 1 - (length (table_new t) - 1))) with 0 in Ax by lia. exact Ax.
    + exfalso. apply (Hn Unassigned); [|reflexivity]. unfold table_new. destruct t; [change (N.to_nat (max_node_id TransportCan)) with (Datatypes.S 126)|replace (N.to_nat (max_node_id Transport64)) with (Datatypes.S (N.to_nat 65533)) by (change (max_node_id Transport64) with 65534; lia)]; left; reflexivity.
  - destruct P as [i a Hi Ha Hl|k l2 Hn _ _ _ _ _|Hn _].
    + destruct i as [|i]; [apply Ax|]. destruct (Hl O Reserved); [lia|exact I|exact Logic.I].
    + destruct (Hn Reserved); [eapply nth_error_In, I|exact Logic.I].
    + destruct (Hn Reserved); [eapply nth_error_In, I|exact Logic.I].
Qed.
Print Assumptions C52_fresh_refuted.

(** ** Executions *)
Fixpoint server_run (l : list assignment) (n : core) (h : list (server_op * list entry)) (ops : list server_op) : res (list (server_op * list entry) * list assignment * core) :=
  match ops with [] => Ok (h, l, n) | o :: r => match server_step l n o with Ok (l', n', es) => server_run l' n' ((o, es) :: h) r | Panic => Panic end end.
Lemma server_run_hist t n0 ops : forall l n h h' l' n', server_hist t n0 h l n -> server_run l n h ops = Ok (h', l', n') -> server_hist t n0 h' l' n'.
Proof.
  induction ops as [|o ops IH]; intros l n h h' l' n' H E; cbn [server_run] in E; [injection E as <- <- <-; exact H|]. destruct (server_step l n o) as [ [ [l1 n1] es]|] eqn:S; [|discriminate]. eapply IH; [|exact E]. eapply sv_step; eassumption.
Qed.
Definition node_ex : core := fst (fst (core_step (fst (fst (core_step (core_new TransportCan KCan 4 2 (Some 11)) (StartPublishing 8166 1000000 4)))) (StartPublishing 8165 1000000 4))).
Definition ask_ex (u : list N) : server_op := SMessage (MsgH 0 0 4 8165 None) ([0; 0] ++ u) (Env 5 true PushOk).
Definition ask1_ex (u : list N) : server_op := SMessage (MsgH 0 0 4 8166 None) (le_bytes 6 (crc64we u mod 2 ^ 48)) (Env 5 true PushOk).
Definition beat_ex (id : N) : server_op := SMessage (MsgH 0 0 4 7509 (Some id)) (repeat 0 7) (Env 5 true PushOk).
Definition u_ex (x : N) : list N := repeat x 16.
Definition run_ex (ops : list server_op) := server_run (table_new TransportCan) node_ex [] ops.
Definition hist_of (r : res (list (server_op * list entry) * list assignment * core)) := match r with Ok (h, _, _) => h | Panic => [] end.
Definition table_of (r : res (list (server_op * list entry) * list assignment * core)) := match r with Ok (_, l, _) => l | Panic => [] end.
Definition core_of (r : res (list (server_op * list entry) * list assignment * core)) := match r with Ok (_, _, n) => n | Panic => node_ex end.
Lemma run_ex_hist ops : match run_ex ops with Ok _ => True | Panic => False end -> server_hist TransportCan node_ex (hist_of (run_ex ops)) (table_of (run_ex ops)) (core_of (run_ex ops)).
Proof.
  intro H. destruct (run_ex ops) as [ [ [h l] n]|] eqn:E; [|destruct H]. cbn [hist_of table_of core_of]. eapply server_run_hist; [|exact E]. apply sv_new. reflexivity.
Qed.

(** The known nodes: two get their node IDs, with both versions of the message; the second one also is alive. *)
Example C52_witness : let r := run_ex [SAssign 20 (u_ex 1); ask_ex (u_ex 1); SAssign 30 (u_ex 2); beat_ex 30; ask1_ex (u_ex 2)] in
  match r with Ok _ => True | Panic => False end /\ all_known (hist_of r) /\ Forall server_op_ok (map fst (hist_of r)) /\
  exists es1 es2, In (ask_ex (u_ex 1), es1) (hist_of r) /\ In (ask1_ex (u_ex 2), es2) (hist_of r) /\
    answers V2 (Unique (u_ex 1)) 20 es1 /\ answers V1 (Hash (crc64we (u_ex 2) mod 2 ^ 48)) 30 es2.
Proof.
  intro r. split; [vm_compute; exact I|]. split; [|split].
  - let x := eval vm_compute in (hist_of r) in replace (hist_of r) with x by (vm_compute; reflexivity). cbn [all_known]. split; [|split; [|split; [|split; [|split] ] ] ]; try exact I.
    + split; [|intros id H; discriminate H]. intros [|] w y S R; [|discriminate S]. vm_compute in R. injection R as <- _. exists 30, (u_ex 2). split; vm_compute; reflexivity.
    + split; [intros [|] w y S; discriminate S|]. intros id _ S. vm_compute in S. injection S as <-. vm_compute. discriminate.
    + intros id x. cbn [owner]. destruct (20 =? id); intro E; [|discriminate E]. injection E as <-. vm_compute. discriminate.
    + split; [|intros id H; discriminate H]. intros [|] w y S R; [discriminate S|]. vm_compute in R. injection R as <- _. exists 20, (u_ex 1). split; vm_compute; reflexivity.
    + intros id x E. discriminate E.
  - let x := eval vm_compute in (map fst (hist_of r)) in replace (map fst (hist_of r)) with x by (vm_compute; reflexivity). repeat constructor.
  - do 2 eexists. split; [vm_compute; right; right; right; left; reflexivity|]. split; [vm_compute; left; reflexivity|]. split; do 4 eexists; (split; [reflexivity|]); split; try (repeat constructor); vm_compute; reflexivity.
Qed.

(** ... a node ID that was assigned is given to another node, ... *)
Theorem C52_overwrite_refuted : exists n0 h l n es u1 u2 o, server_hist TransportCan n0 h l n /\ Forall server_op_ok (map fst h) /\ u1 <> u2 /\
  owner h 0 = Some u1 /\ In (o, es) h /\ asks V2 (Unique u2) o /\ answers V2 (Unique u2) 0 es.
Proof.
  exists node_ex, (hist_of (run_ex [SAssign 0 (u_ex 1); ask_ex (u_ex 2)])), (table_of (run_ex [SAssign 0 (u_ex 1); ask_ex (u_ex 2)])), (core_of (run_ex [SAssign 0 (u_ex 1); ask_ex (u_ex 2)])). eexists. exists (u_ex 1), (u_ex 2), (ask_ex (u_ex 2)).
  split; [apply run_ex_hist; vm_compute; exact I|]. split; [vm_compute; repeat constructor|]. split; [discriminate|]. split; [vm_compute; reflexivity|]. split; [vm_compute; left; reflexivity|]. split; [split; [reflexivity|eexists; vm_compute; reflexivity]|].
  do 4 eexists. split; [reflexivity|]. split; [repeat constructor|vm_compute; reflexivity].
Qed.
Print Assumptions C52_overwrite_refuted.
(** ... and the answer to the same node changes when another node is heard. *)
Theorem C52_unstable_refuted : exists n0 h l n w o es1 es2 id1 id2, server_hist TransportCan n0 h l n /\ Forall server_op_ok (map fst h) /\
  asks V2 w o /\ In (o, es1) h /\ In (o, es2) h /\ answers V2 w id1 es1 /\ answers V2 w id2 es2 /\ id1 <> id2.
Proof.
  set (ops := [beat_ex 5; ask_ex (u_ex 1); beat_ex 3; ask_ex (u_ex 1)]). exists node_ex, (hist_of (run_ex ops)), (table_of (run_ex ops)), (core_of (run_ex ops)), (Unique (u_ex 1)), (ask_ex (u_ex 1)). do 2 eexists. exists 5, 3.
  split; [apply run_ex_hist; vm_compute; exact I|]. split; [vm_compute; repeat constructor|]. split; [split; [reflexivity|eexists; vm_compute; reflexivity]|]. split; [vm_compute; right; right; left; reflexivity|]. split; [vm_compute; left; reflexivity|].
  split; [|split; [|discriminate] ]; do 4 eexists; (split; [reflexivity|]); (split; [repeat constructor|vm_compute; reflexivity]).
Qed.
Print Assumptions C52_unstable_refuted.
Example C52_fresh_witness : let r := run_ex [ask_ex (u_ex 1); ask1_ex (u_ex 2); ask_ex (u_ex 3)] in match r with Ok _ => True | Panic => False end /\ Forall (fun o => exists v w, asks v w o) (map fst (hist_of r)) /\ Forall server_op_ok (map fst (hist_of r)).
Proof.
  intro r. split; [vm_compute; exact I|]. split; [|vm_compute; repeat constructor]. replace (map fst (hist_of r)) with [ask_ex (u_ex 3); ask1_ex (u_ex 2); ask_ex (u_ex 1)] by (vm_compute; reflexivity).
  repeat (apply Forall_cons; [first [exists V2; eexists; split; [reflexivity|eexists; vm_compute; reflexivity]|exists V1; eexists; split; [reflexivity|eexists; vm_compute; reflexivity] ]|]). apply Forall_nil.
Qed.

(** * C81: the server does not panic *)

(** Assigning a node ID and receiving any message does not panic, if the node IDs of the application and of other nodes are not the greatest
    of the transport. *)
Theorem C81_no_panic_partial : forall t n0 h l n o, server_hist t n0 h l n -> Forall server_op_ok (map fst h) -> server_op_ok o ->
  (server_step l n o = Panic <->
   match o with
   | SAssign id _ => greatest_node_id t <= id
   | SMessage header b _ => mh_subject header = heartbeat_subject /\ exists id v, mh_source header = Some id /\ greatest_node_id t <= id /\ deserialize_from_bytes heartbeat_t b = Ok (DOk v)
   end).
Proof.
  change greatest_node_id with max_node_id. intros t n0 h l n o H F Fo. destruct (server_hist_inv _ _ _ _ _ H F) as (L & T). destruct o as [id u|header b e]; cbn [server_step server_op_ok] in *.
  - unfold server_assign. destruct (nth_error l (N.to_nat id)) as [a|] eqn:E.
    + assert (N.to_nat id < length l)%nat by (apply nth_error_Some; congruence). cbn [bind]. split; [discriminate|lia].
    + apply nth_error_None in E. split; [lia|reflexivity].
  - assert (Hb : forall id, handle_heartbeat l id = Panic <-> max_node_id t <= id).
    { intro id. unfold handle_heartbeat. destruct (nth_error l (N.to_nat id)) as [a|] eqn:E; [|apply nth_error_None in E; split; [lia|reflexivity] ]. assert (N.to_nat id < length l)%nat by (apply nth_error_Some; congruence). split; [discriminate|lia]. }
    destruct (server_message_right l n header b e Fo ltac:(rewrite T; lia)) as [(v & w & o & x & l1 & n1 & es1 & S & _ & Em & _)|(_ & [Em|(id & S & So & Em)])].
    + rewrite Em. cbn [bind]. split; [discriminate|]. intros (S' & _). rewrite S in S'. destruct v; discriminate S'.
    + split; [rewrite Em; discriminate|]. intros (S & id & v & So & Hid & D). exfalso. unfold server_message in Em. rewrite S, So, D in Em. change (heartbeat_subject =? allocation_subject V1) with false in Em. change (heartbeat_subject =? allocation_subject V2) with false in Em. change (heartbeat_subject =? heartbeat_subject) with true in Em. cbv iota in Em. cbn [bind] in Em. apply Hb in Hid. rewrite Hid in Em. discriminate.
    + rewrite Em. destruct (handle_heartbeat l id) as [l1|] eqn:E; cbn [bind].
      * split; [discriminate|]. intros (_ & i & _ & So' & Hi & _). assert (i = id) as -> by congruence. apply Hb in Hi. congruence.
      * split; [|reflexivity]. intros _. split; [exact S|]. destruct (heartbeat_total b Fo) as (r & D). destruct r as [v|].
        -- exists id, v. split; [exact So|]. split; [apply Hb, E|exact D].
        -- exfalso. unfold server_message in Em. rewrite S, So, D in Em. change (heartbeat_subject =? allocation_subject V1) with false in Em. change (heartbeat_subject =? allocation_subject V2) with false in Em. change (heartbeat_subject =? heartbeat_subject) with true in Em. cbv iota in Em. cbn [bind] in Em. discriminate Em.
Qed.
Print Assumptions C81_no_panic_partial.
Example C81_witness : exists r, run_ex [SAssign 126 (u_ex 1); beat_ex 126; ask_ex (u_ex 9); beat_ex 0] = Ok r.
Proof. eexists. vm_compute. reflexivity. Qed.
(** The code violates it: a heartbeat from the greatest node ID, 127 with CAN, stops any server. *)
Theorem C81_greatest_id_refuted : forall n0 h l n, server_hist TransportCan n0 h l n -> Forall server_op_ok (map fst h) ->
  exists header b, mh_subject header = heartbeat_subject /\ mh_source header = Some 127 /\ bytes_ok b /\ forall e, server_message l n header b e = Panic.
Proof.
  intros n0 h l n H F. exists (MsgH 0 0 4 7509 (Some 127)), (repeat 0 7). split; [reflexivity|]. split; [reflexivity|]. assert (B : bytes_ok (repeat 0 7)) by repeat constructor. split; [exact B|]. intro e.
  destruct (C81_no_panic_partial _ _ _ _ _ (SMessage (MsgH 0 0 4 7509 (Some 127)) (repeat 0 7) e) H F B) as (_ & K). cbn [server_step] in K.
  destruct (server_message l n _ (repeat 0 7) e) as [ [ [ [? ?] ?] ?]|]; [|reflexivity]. discriminate K. split; [reflexivity|]. do 2 eexists. split; [reflexivity|]. split; [vm_compute; discriminate|vm_compute; reflexivity].
Qed.
Print Assumptions C81_greatest_id_refuted.
Example C81_greatest_id_witness : server_hist TransportCan node_ex [] (table_new TransportCan) node_ex.
Proof. apply sv_new. reflexivity. Qed.
(** Listing the assignments does not panic; every node ID but the greatest is listed once, in order. *)
Theorem C81_assignments : forall t n0 h l n, server_hist t n0 h l n -> Forall server_op_ok (map fst h) ->
  length (server_assignments t l) = N.to_nat (greatest_node_id t) /\
  forall i, (i < N.to_nat (greatest_node_id t))%nat -> exists a, nth_error l i = Some a /\ nth_error (server_assignments t l) i = Some (Ok (N.of_nat i, a)).
Proof.
  change greatest_node_id with max_node_id. intros t n0 h l n H F. destruct (server_hist_inv _ _ _ _ _ H F) as (L & _). unfold server_assignments. split; [rewrite map_length, combine_length, seq_length; lia|]. intros i Hi. destruct (nth_error l i) as [a|] eqn:E; [|apply nth_error_None in E; lia]. exists a. split; [reflexivity|].
  assert (C : nth_error (combine (seq 0 (length l)) l) i = Some (i, a)).
  { clear - E. assert (G : forall k, nth_error (combine (seq k (length l)) l) i = Some ((k + i)%nat, a)); [|apply (G O)]. revert i E. induction l as [|x l IH]; intros [|i] E k; try discriminate E.
    - injection E as ->. cbn. rewrite Nat.add_0_r. reflexivity.
    - cbn [length seq combine nth_error] in *. rewrite (IH i E). f_equal. f_equal. lia. }
  rewrite (map_nth_error _ _ _ C). cbn [fst snd]. unfold to_node_id. rewrite (proj2 (N.leb_le _ _)) by lia. reflexivity.
Qed.
Print Assumptions C81_assignments.

(** * C82: what a client adopts *)

(** A node with a client takes a node ID from a message exactly if the message names the unique ID of the client, or its hash, with a node ID of
    the transport.  It then has exactly this ID, and has left the subject.  Otherwise nothing changes. *)
Theorem C82_client_partial : forall t k P R id0 h n v u header b, kind_ok t k -> core_hist (core_new t k P R id0) h n -> bytes_ok b ->
  (forall id, offers t v u b id -> exists n' es, client_message v u n header b = Ok (true, n', es) /\ adopted v id n n' /\
     map fst (map fst (rev es)) = [SetNodeId id; UnsubscribeMessage (allocation_subject v); StopPublishing (allocation_subject v)] /\
     concat (map (fun x => snd (fst x)) (rev es)) = [CSetId id; CUnsubMessage (allocation_subject v)] /\ core_hist (core_new t k P R id0) (es ++ h) n') /\
  ((forall id, ~ offers t v u b id) -> client_message v u n header b = Ok (false, n, [])).
Proof.
  intros t k P R id0 h n v u header b Hk H B. pose proof (hist_inv _ _ _ _ _ _ _ Hk H) as V. pose proof (i_t _ _ _ _ _ _ _ V) as T. destruct (client_right v u n header b B (i_pd _ _ _ _ _ _ _ V)) as [(id & n' & O & A & E)|(N & E)]; rewrite T in *.
  - split.
    + intros id' O'. assert (id' = id) as ->. { destruct O as (w & O1 & _), O' as (w' & O2 & _). congruence. } eexists n', _. split; [exact E|]. split; [exact A|]. split; [reflexivity|]. split; [reflexivity|].
      unfold client_message in E. destruct (offer (c_transport n) v u b) as [ [i|]|]; [|discriminate E..]. cbn [bind inner_step core_step set_node_id stop_publishing fst snd] in E. injection E as E Ei. assert (i = id) as -> by congruence. rewrite <- E. cbn [app].
      eapply ch_step; [eapply ch_step; [eapply ch_step; [exact H|reflexivity|discriminate]|reflexivity|discriminate]|reflexivity|discriminate].
    + intro N. destruct (N id O).
  - split; [|intros _; exact E]. intros id O. destruct (N id O).
Qed.
Print Assumptions C82_client_partial.
Example C82_witness : let b := [20; 0] ++ u_ex 1 in offers TransportCan V2 (u_ex 1) b 20 /\ (forall id, ~ offers TransportCan V2 (u_ex 2) b id) /\ (forall id, ~ offers TransportCan V2 (u_ex 1) ([128; 0] ++ u_ex 1) id) /\
  (forall id, ~ offers TransportCan V1 (u_ex 1) (le_bytes 6 (crc64we (u_ex 1) mod 2 ^ 48) ++ [0; 5; 0]) id) /\ offers TransportCan V1 (u_ex 1) (le_bytes 6 (crc64we (u_ex 1) mod 2 ^ 48) ++ [1; 5; 0]) 5.
Proof.
  intro b. split; [eexists; split; [vm_compute; reflexivity|split; [reflexivity|vm_compute; discriminate] ]|]. split; [|split; [|split] ].
  - intros id (w & R & W & _). vm_compute in R. injection R as <- _. vm_compute in W. discriminate.
  - intros id (w & R & W & L). vm_compute in R. injection R as _ <-. vm_compute in L. apply L. reflexivity.
  - intros id (w & R & _). vm_compute in R. discriminate.
  - eexists. split; [vm_compute; reflexivity|]. split; [vm_compute; reflexivity|vm_compute; discriminate].
Qed.
(** The code violates the rules of the protocol, by which only an answer counts, which is a message on the subject from a node that has an ID:
    a client of version 2 takes its own request for an answer, and takes node ID 0, whatever the subject and the source of the message are. *)
Theorem C82_own_request_refuted : forall t k P R id0 h n u n' p e calls r e', kind_ok t k -> core_hist (core_new t k P R id0) h n -> unique_id_ok u ->
  client_request V2 u n e = Ok (n', (Publish false (allocation_subject V2) p e', calls, r)) ->
  forall header, exists n'' es, client_message V2 u n header p = Ok (true, n'', es) /\ c_id n'' = Some 0.
Proof.
  intros t k P R id0 h n u n' p e calls r e' Hk H U E header. unfold client_request, publish_value in E. destruct (request_payload V2 u U) as (p' & Ep & B & _ & Rd). rewrite Ep in E. cbn [bind] in E. destruct (publish_step n (allocation_subject V2) p' e) as (n1 & c & r1 & Es & _). rewrite Es in E. injection E as _ <- _ _ _.
  destruct (C82_client_partial t k P R id0 h n V2 u header p' Hk H B) as (C & _). destruct (C 0) as (n'' & es & Em & (A & _) & _).
  - exists (self V2 u). split; [exact Rd|]. split; [apply self_right, U|]. lia.
  - exists n'', es. auto.
Qed.
Print Assumptions C82_own_request_refuted.
(** With version 1 a request is never taken for an answer. *)
Theorem C82_request_1 : forall t k P R id0 h n u u' n' p e calls r e', kind_ok t k -> core_hist (core_new t k P R id0) h n -> unique_id_ok u ->
  client_request V1 u n e = Ok (n', (Publish false (allocation_subject V1) p e', calls, r)) ->
  forall m header, NoDup (keys (c_publishers m)) -> client_message V1 u' m header p = Ok (false, m, []).
Proof.
  intros t k P R id0 h n u u' n' p e calls r e' Hk H U E m header D. unfold client_request, publish_value in E. destruct (request_payload V1 u U) as (p' & Ep & B & _ & Rd). rewrite Ep in E. cbn [bind] in E. destruct (publish_step n (allocation_subject V1) p' e) as (n1 & c & r1 & Es & _). rewrite Es in E. injection E as _ <- _ _ _.
  destruct (client_right V1 u' m header p' B D) as [(id & n2 & (w & O & _) & _)|(_ & X)]; [|exact X]. rewrite Rd in O. discriminate.
Qed.
Print Assumptions C82_request_1.
Example C82_request_witness : core_hist (core_new TransportCan KCan 4 2 None) [] (core_new TransportCan KCan 4 2 None) /\ unique_id_ok (u_ex 7) /\
  exists n' p e' calls r, client_request V2 (u_ex 7) (core_new TransportCan KCan 4 2 None) (Env 0 true PushOk) = Ok (n', (Publish false (allocation_subject V2) p e', calls, r)).
Proof. split; [apply ch_nil|]. split; [split; [reflexivity|repeat constructor]|]. do 5 eexists. vm_compute. reflexivity. Qed.

(** * C83: a node gets the node ID that the server picked *)

(** A client makes a request; the server receives it, and picks a node ID; the client receives the answer, and takes that ID.  The transports
    may add padding to the payloads. *)
Theorem C83_exchange : forall v u n e, unique_id_ok u ->
  exists n1 p calls r, client_request v u n e = Ok (n1, (Publish false (allocation_subject v) p e, calls, r)) /\
  forall t n0 h l m header more e2, server_hist t n0 h l m -> Forall server_op_ok (map fst h) -> bytes_ok more -> mh_subject header = allocation_subject v ->
  exists x l' m' es, server_message l m header (p ++ more) e2 = Ok (true, l', m', es) /\ picks (self v u) l x l' /\
  forall id, x = Some id -> exists p2 e3 calls2 r2, es = [(Publish false (allocation_subject v) p2 e3, calls2, r2)] /\
  forall k P R id0 g c header2 more2, kind_ok t k -> core_hist (core_new t k P R id0) g c -> bytes_ok more2 ->
  exists c' es2, client_message v u c header2 (p2 ++ more2) = Ok (true, c', es2) /\ adopted v id c c'.
Proof.
  intros v u n e U. destruct (request_payload v u U) as (p & Ep & B & L & Rd). destruct (self_right v u U) as (W & Vs & Wu & _). unfold client_request, publish_value. rewrite Ep. cbn [bind]. destruct (publish_step n (allocation_subject v) p e) as (n1 & c & r & Es & _). rewrite Es.
  exists n1, p, c, r. split; [reflexivity|]. intros t n0 h l m header more e2 H F M S. pose proof (reading_padded v p more _ _ Rd L) as Rp.
  destruct (server_hist_inv _ _ _ _ _ H F) as (Lt & T). destruct (C52_answer t n0 h l m header (p ++ more) e2 v _ _ H F ltac:(apply Forall_app; split; assumption) S Rp) as (x & l' & m' & es & E & P & A). exists x, l', m', es. split; [exact E|]. split; [exact P|].
  intros id ->. destruct A as (_ & Hid). change greatest_node_id with max_node_id in Hid. unfold server_message in E. assert (Ea : server_allocation v l m (p ++ more) e2 = Ok (true, l', m', es)).
  { rewrite S in E. destruct v; [exact E|exact E]. }
  unfold server_allocation in Ea. rewrite decode_allocation in Ea by (apply Forall_app; split; assumption). cbn [bind] in Ea. rewrite Rp in Ea. destruct (handle_right (c_transport m) (self v u) (asked v) l ltac:(rewrite T; lia)) as (x' & l2 & Eh & P' & Hx). rewrite Vs in Eh. rewrite Eh in Ea. cbn [bind fst snd] in Ea.
  assert (x' = Some id) as ->.
  { clear - P P'. assert (U : forall w l x l1, picks w l x l1 -> forall y l2, picks w l y l2 -> x = y); [|exact (U _ _ _ _ P' _ _ P)]. clear. intros w l x l1 H y l2 K.
    destruct H as [i a Hi Ha Hl|k l3 Hn Hk Hm _ _ _|Hn Hf], K as [i' a' Hi' Ha' Hl'|k' l3' Hn' Hk' Hm' _ _ _|Hn' Hf']; try reflexivity.
    - destruct (Nat.lt_trichotomy i i') as [X|[->|X] ]; [destruct (Hl' i a X Hi Ha)|reflexivity|destruct (Hl i' a' X Hi' Ha')].
    - destruct (Hn' a (nth_error_In _ _ Hi) Ha).
    - destruct (Hn' a (nth_error_In _ _ Hi) Ha).
    - destruct (Hn a' (nth_error_In _ _ Hi') Ha').
    - destruct (Nat.lt_trichotomy k k') as [X|[->|X] ]; [destruct (Hm k' _ X Hk' eq_refl)|reflexivity|destruct (Hm' k _ X Hk eq_refl)].
    - destruct (Hf' _ (nth_error_In _ _ Hk) eq_refl).
    - destruct (Hn a' (nth_error_In _ _ Hi') Ha').
    - destruct (Hf _ (nth_error_In _ _ Hk') eq_refl). }
  cbn [option_map] in Ea. assert (I16 : forall i, Some id = Some i -> i < 2 ^ 16).
  { intros i Hi. injection Hi as <-. assert (max_node_id t < 2 ^ 16) by (destruct t; reflexivity). lia. }
  destruct (allocation_payload (self v u) (Some id) W I16 ltac:(discriminate)) as (p2 & Ep2 & B2 & L2 & R2). rewrite Vs in Ep2, R2. unfold publish_value in Ea. rewrite Ep2 in Ea. cbn [bind] in Ea. destruct (publish_step m (allocation_subject v) p2 e2) as (m1 & c2 & r2 & Es2 & _). rewrite Es2 in Ea. cbn [bind fst snd] in Ea. injection Ea as _ _ <-.
  exists p2, e2, c2, r2. split; [reflexivity|]. intros k P0 R id0 g cl header2 more2 Hk Hc M2. destruct (C82_client_partial t k P0 R id0 g cl v u header2 (p2 ++ more2) Hk Hc ltac:(apply Forall_app; split; assumption)) as (C & _). destruct (C id) as (c' & es2 & Em & A & _).
  - exists (self v u). split; [apply reading_padded; assumption|]. split; assumption.
  - exists c', es2. auto.
Qed.
Print Assumptions C83_exchange.
Example C83_witness : exists n1 p calls, client_request V1 (u_ex 4) (fst (fst (core_step (core_new TransportCan KCan 4 2 None) (StartPublishing 8166 1000000 4)))) (Env 0 true PushOk) = Ok (n1, (Publish false 8166 p (Env 0 true PushOk), calls, ODone)) /\ length p = 7%nat /\
  exists l' m' es, server_message (table_of (run_ex [SAssign 20 (u_ex 4)])) node_ex (MsgH 0 0 4 8166 None) p (Env 5 true PushOk) = Ok (true, l', m', es) /\ es <> [].
Proof. do 3 eexists. split; [vm_compute; reflexivity|]. split; [reflexivity|]. do 3 eexists. split; [vm_compute; reflexivity|discriminate]. Qed.

(** * C84: creating clients and servers *)

(** A client can be created if the receiver accepts the subscription, the node does not publish on the subject yet, and has room for a
    publisher.  The MTU has to be enough for an answer, in programs with debug assertions. *)
Theorem C84_client_partial : forall v n mtu debug answer, (debug = true -> (allocation_size_max v <= mtu)%nat) ->
  exists ok n' es, client_new v n mtu debug answer = Ok (ok, n', es) /\
  (ok = true <-> answer = SubOk /\ im_get (allocation_subject v) (c_publishers n) = None /\ (length (c_publishers n) < c_P n)%nat) /\
  (ok = true -> (forall s, im_get s (c_publishers n') = if s =? allocation_subject v then Some (publisher_new 1000000 4) else im_get s (c_publishers n)) /\
     concat (map (fun x => snd (fst x)) (rev es)) = [CSubMessage (allocation_subject v) (allocation_size_max v) 1000000]) /\
  (ok = false -> n' = n).
Proof.
  intros v n mtu debug answer D. unfold client_new. replace (debug && (mtu <? allocation_size_max v)%nat) with false by (destruct debug; [|reflexivity]; symmetry; apply Nat.ltb_ge, D; reflexivity).
  unfold join, inner_step, core_step, start_publishing. destruct answer as [|er|]; cbn [subscribe_out bind fst snd]; [|do 3 eexists; (split; [reflexivity|]); (split; [split; [discriminate|intros (X & _); discriminate X]|]); (split; [discriminate|reflexivity])..].
  destruct (im_get (allocation_subject v) (c_publishers n)) as [p|] eqn:G.
  - cbn [bind fst snd]. do 3 eexists. split; [reflexivity|]. split; [split; [discriminate|intros (_ & X & _); discriminate X]|]. split; [discriminate|reflexivity].
  - unfold im_insert. rewrite G. destruct (Nat.ltb_spec (length (c_publishers n)) (c_P n)) as [Hl|Hl]; cbn [bind fst snd].
    + do 3 eexists. split; [reflexivity|]. split; [tauto|]. split; [|discriminate]. intros _. split; [|reflexivity]. intro s. cbn [set_publishers c_publishers].
      clear Hl. revert G. induction (c_publishers n) as [|[x w] l IH]; cbn [im_get app].
      * intros _. rewrite N.eqb_sym. reflexivity.
      * destruct (N.eqb_spec x (allocation_subject v)); [discriminate|]. intro G. rewrite (IH G). destruct (N.eqb_spec x s); [|reflexivity]. subst x. rewrite (proj2 (N.eqb_neq _ _)) by assumption. reflexivity.
    + do 3 eexists. split; [reflexivity|]. split; [split; [discriminate|lia]|]. split; [discriminate|reflexivity].
Qed.
Print Assumptions C84_client_partial.
(** The code violates the property: version 1 exists for Classic CAN, whose frames have 7 bytes for a payload.  There a client of version 1 cannot be
    created in programs with debug assertions, although its requests have 7 bytes. *)
Theorem C84_classic_can_refuted : forall n answer u, unique_id_ok u -> client_new V1 n 7 true answer = Panic /\
  exists p, payload_of allocation1_t (with_unique_id V1 u) = Ok p /\ length p = 7%nat.
Proof. intros n answer u U. split; [reflexivity|]. destruct (request_payload V1 u U) as (p & E & _ & L & _). exists p. split; [exact E|exact L]. Qed.
Print Assumptions C84_classic_can_refuted.
(** ... and if a client cannot be created, the subscription remains. *)
Theorem C84_leak_refuted : exists v n mtu n' es, client_new v n mtu true SubOk = Ok (false, n', es) /\
  In (CSubMessage (allocation_subject v) (allocation_size_max v) 1000000) (concat (map (fun x => snd (fst x)) es)) /\ ~ In (CUnsubMessage (allocation_subject v)) (concat (map (fun x => snd (fst x)) es)).
Proof. exists V1, (core_new TransportCan KCan 0 0 None), 63%nat. do 2 eexists. split; [vm_compute; reflexivity|]. split; [left; reflexivity|]. intros [X|[] ]; discriminate X. Qed.
Print Assumptions C84_leak_refuted.
Example C84_witness : exists n' es, client_new V2 (core_new TransportCan KCan 1 0 None) 63 true SubOk = Ok (true, n', es) /\ publishers n' = [8165].
Proof. do 2 eexists. split; vm_compute; reflexivity. Qed.
(** A server publishes on the subjects that it is subscribed to: version 2 is supported exactly if its messages fit in one frame. *)
Theorem C84_server : forall n mtu a1 a2 l n' es, server_new n mtu a1 a2 = Ok (Some l, n', es) ->
  l = table_new (c_transport n) /\ c_transport n' = c_transport n /\
  concat (map (fun x => snd (fst x)) (rev es)) = CSubMessage 8166 9 1000000 :: (if (18 <=? mtu)%nat then [CSubMessage 8165 18 1000000] else []) /\
  (forall s, im_get s (c_publishers n') = if (s =? 8166) || ((18 <=? mtu)%nat && (s =? 8165)) then Some (publisher_new 1000000 4) else im_get s (c_publishers n)).
Proof.
  assert (J : forall v n answer n' es, join v n answer = Ok (true, n', es) -> c_transport n' = c_transport n /\ concat (map (fun x => snd (fst x)) (rev es)) = [CSubMessage (allocation_subject v) (allocation_size_max v) 1000000] /\
    forall s, im_get s (c_publishers n') = if s =? allocation_subject v then Some (publisher_new 1000000 4) else im_get s (c_publishers n)).
  { intros v n answer n' es E. destruct (C84_client_partial v n (allocation_size_max v) false answer ltac:(discriminate)) as (ok & n1 & es1 & E1 & _ & K & _). change (client_new v n (allocation_size_max v) false answer) with (join v n answer) in E1. rewrite E in E1. injection E1 as <- <- <-. destruct (K eq_refl) as (K1 & K2). split; [|split; assumption].
    unfold join, inner_step, core_step, start_publishing in E. destruct answer; cbn [subscribe_out bind fst snd] in E; try discriminate E. destruct (im_get (allocation_subject v) (c_publishers n)); [discriminate E|]. destruct (im_insert (c_P n) _ _ _); [|discriminate E]. cbn [bind fst snd] in E. injection E as <- _. reflexivity. }
  intros n mtu a1 a2 l n' es E. unfold server_new in E. destruct (join V1 n a1) as [ [ [ok n1] es1]|] eqn:E1; [|discriminate E]. cbn [bind] in E. destruct ok; [|discriminate E]. apply J in E1 as (T1 & C1 & G1). change (allocation_size_max V2) with 18%nat in E. destruct (18 <=? mtu)%nat.
  - destruct (join V2 n1 a2) as [ [ [ok n2] es2]|] eqn:E2; [|discriminate E]. cbn [bind] in E. destruct ok; [|discriminate E]. apply J in E2 as (T2 & C2 & G2). injection E as <- <- <-. split; [reflexivity|]. split; [congruence|]. split.
    + rewrite rev_app_distr, map_app, concat_app. exact (f_equal2 (@app call) C1 C2).
    + intro s. rewrite G2, G1. change (allocation_subject V1) with 8166. change (allocation_subject V2) with 8165. destruct (s =? 8165) eqn:X, (s =? 8166) eqn:Y; reflexivity.
  - injection E as <- <- <-. split; [reflexivity|]. split; [exact T1|]. split; [exact C1|]. intro s. rewrite G1. change (allocation_subject V1) with 8166. rewrite orb_false_r. reflexivity.
Qed.
Print Assumptions C84_server.
Example C84_server_witness : exists l n' es, server_new (core_new TransportCan KCan 4 2 (Some 1)) 63 SubOk SubOk = Ok (Some l, n', es) /\ publishers n' = [8166; 8165].
Proof. do 3 eexists. split; vm_compute; reflexivity. Qed.

(** * C85: requests of the stand-alone client *)

(** If the transmitter takes the transfer, one anonymous request with the hash of the unique ID is sent, which fits in a frame of Classic CAN. *)
Theorem C85_send_partial : forall t u a mtu e, unique_id_ok u -> (7 <= mtu)%nat -> e_push e = PushOk ->
  exists p, pnp_client_send t u a mtu e = Ok (Anonymous (a_priority a) (a_subject a) (tid_next t (a_next a)) (a_timeout a),
    [CPush (Transfer (HMsg (MsgH (t_add (e_now e) (a_timeout a)) (a_next a) (a_priority a) (a_subject a) None)) false p)]) /\
  length p = 7%nat /\ bytes_ok p /\ reading V1 p = Some (Hash (crc64we u mod 2 ^ 48), None).
Proof.
  intros t u a mtu e U M Pu. destruct (request_payload V1 u U) as (p & E & B & L & R). exists p. cbn [message_length self asked] in L. unfold pnp_client_send. change allocation1_t with (allocation_t V1). rewrite E. cbn [bind]. unfold anonymous_send, serialize_ok. rewrite L. replace (mtu <? 7)%nat with false by (symmetry; apply Nat.ltb_ge, M). change (7 <=? 64)%nat with true. cbn [orb]. rewrite Pu. auto.
Qed.
Print Assumptions C85_send_partial.
Example C85_witness : exists a calls, pnp_client_send TransportCan (u_ex 3) pnp_client_new 7 (Env 0 true PushOk) = Ok (a, calls) /\ length calls = 1%nat.
Proof. do 2 eexists. split; [vm_compute; reflexivity|reflexivity]. Qed.
(** The code violates the property: it panics, with the message that a transfer does not fit into one frame, whenever the transmitter does not take the transfer,
    for example because its queue is full at the moment. *)
Theorem C85_busy_refuted : forall t u a mtu e, unique_id_ok u -> (7 <= mtu)%nat -> e_push e <> PushOk -> pnp_client_send t u a mtu e = Panic.
Proof.
  intros t u a mtu e U M Pu. destruct (request_payload V1 u U) as (p & E & B & L & R). cbn [message_length self asked] in L. unfold pnp_client_send. change allocation1_t with (allocation_t V1). rewrite E. cbn [bind]. unfold anonymous_send, serialize_ok. rewrite L. replace (mtu <? 7)%nat with false by (symmetry; apply Nat.ltb_ge, M). change (7 <=? 64)%nat with true. cbn [orb]. destruct (e_push e); [congruence|reflexivity..].
Qed.
Print Assumptions C85_busy_refuted.
Example C85_busy_witness : unique_id_ok (u_ex 3) /\ e_push (Env 0 true PushWouldBlock) <> PushOk.
Proof. split; [split; [reflexivity|repeat constructor]|discriminate]. Qed.
(** What it receives is taken for an answer by the same rule as in C82. *)
Theorem C85_receive : forall t u b, bytes_ok b -> exists o, pnp_client_receive t u b = Ok o /\ forall id, o = Some id <-> offers t V1 u b id.
Proof. intros t u b B. exact (offer_right t V1 u b B). Qed.
Print Assumptions C85_receive.
(** The requests of a client go to the subject of version 1, with successive transfer IDs from 0 on. *)
Theorem C85_requests_partial : forall t u mtu k, unique_id_ok u -> (7 <= mtu)%nat -> forall es, length es = k -> Forall (fun e => e_push e = PushOk) es ->
  exists a p, length p = 7%nat /\ reading V1 p = Some (Hash (crc64we u mod 2 ^ 48), None) /\
  fold_left (fun x e => bind x (fun y => bind (pnp_client_send t u (fst y) mtu e) (fun z => Ok (fst z, snd y ++ snd z)))) es (Ok (pnp_client_new, [])) =
    Ok (a, map (fun ie => CPush (Transfer (HMsg (MsgH (t_add (e_now (snd ie)) 1000000) (Nat.iter (fst ie) (tid_next t) 0) 4 8166 None)) false p)) (combine (seq 0 k) es)).
Proof.
  intros t u mtu k U M es. destruct (request_payload V1 u U) as (p & Ep & B & L & R).
  assert (G : forall es j calls0, Forall (fun e => e_push e = PushOk) es ->
    fold_left (fun x e => bind x (fun y => bind (pnp_client_send t u (fst y) mtu e) (fun z => Ok (fst z, snd y ++ snd z)))) es (Ok (Anonymous 4 8166 (Nat.iter j (tid_next t) 0) 1000000, calls0)) =
    Ok (Anonymous 4 8166 (Nat.iter (j + length es) (tid_next t) 0) 1000000, calls0 ++ map (fun ie => CPush (Transfer (HMsg (MsgH (t_add (e_now (snd ie)) 1000000) (Nat.iter (fst ie) (tid_next t) 0) 4 8166 None)) false p)) (combine (seq j (length es)) es))).
  { clear es. induction es as [|e es IH]; intros j calls0 F; cbn [fold_left length]; [rewrite Nat.add_0_r; cbn [seq combine map]; rewrite app_nil_r; reflexivity|].
    apply Forall_cons_iff in F as (Fe & F). destruct (C85_send_partial t u (Anonymous 4 8166 (Nat.iter j (tid_next t) 0) 1000000) mtu e U M Fe) as (p' & E & L' & B' & R'). cbn [bind fst snd]. rewrite E. cbn [bind fst snd a_priority a_subject a_next a_timeout].
    assert (p' = p) as ->.
    { unfold pnp_client_send in E. change allocation1_t with (allocation_t V1) in E. rewrite Ep in E. cbn [bind] in E. unfold anonymous_send in E. destruct (mtu <? length p)%nat; [discriminate E|]. destruct (serialize_ok e p); [|discriminate E]. rewrite Fe in E. injection E as E. congruence. }
    change (tid_next t (Nat.iter j (tid_next t) 0)) with (Nat.iter (Datatypes.S j) (tid_next t) 0). rewrite IH by exact F. f_equal. f_equal; [f_equal; f_equal; lia|]. rewrite <- app_assoc. reflexivity. }
  intros <- F. eexists _, p. split; [exact L|]. split; [exact R|]. change pnp_client_new with (Anonymous 4 8166 (Nat.iter 0 (tid_next t) 0) 1000000). rewrite G by exact F. reflexivity.
Qed.
Print Assumptions C85_requests_partial.
Example C85_requests_witness : exists a calls, fold_left (fun x e => bind x (fun y => bind (pnp_client_send TransportCan (u_ex 1) (fst y) 7 e) (fun z => Ok (fst z, snd y ++ snd z)))) [Env 1 true PushOk; Env 5 true PushOk] (Ok (pnp_client_new, [])) = Ok (a, calls) /\ length calls = 2%nat.
Proof. do 2 eexists. split; [vm_compute; reflexivity|reflexivity]. Qed.
