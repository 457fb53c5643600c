(** Proofs about the bxCAN driver. *)
From Verif Require Import Base BitLemmas CoreModel FilterModel CanIdModel CanSpec CanIdProofs FilterProofs CanTxModel CanQueueModel CanQueueSpec CanQueueProofs BxModel BxSpec.

Ltac Zify.zify_post_hook ::= Z.div_mod_to_equations.

(** * Time *)

Lemma t_gt_late now d : now < 2 ^ 32 -> d < 2 ^ 32 -> (t_gt now d = true <-> late d now).
Proof.
  intros Hn Hd. unfold t_gt, t_sub, late. change (2 ^ 32) with 4294967296 in *. change (2 ^ 31) with 2147483648.
  destruct (N.eqb_spec now d) as [->|Hne].
  - split; [discriminate|]. intros (k & Hk & E). lia.
  - rewrite N.leb_le. split.
    + intro H. exists ((now + 4294967296 - d) mod 4294967296). lia.
    + intros (k & Hk & E). lia.
Qed.
Lemma t_gt_lt now d : now < 2 ^ 32 -> d < 2 ^ 32 -> t_gt now d = true -> t_lt d now = true.
Proof.
  unfold t_gt, t_lt, t_sub. change (2 ^ 32) with 4294967296. change (2 ^ 31) with 2147483648. intros Hn Hd.
  destruct (N.eqb_spec now d) as [->|]; [discriminate|]. destruct (N.eqb_spec d now) as [->|]; [congruence|]. rewrite N.leb_le, N.ltb_lt. lia.
Qed.
Lemma t_lt_gt now d : now < 2 ^ 32 -> d < 2 ^ 32 -> t_lt d now = false -> t_gt now d = false.
Proof. intros Hn Hd H. destruct (t_gt now d) eqn:E; [|reflexivity]. rewrite (t_gt_lt now d Hn Hd E) in H. discriminate. Qed.

(** * Mailboxes *)

Definition slot_list {A} (s : option A) : list A := match s with Some a => [a] | None => [] end.
Definition occupied {A} (os : list (option A)) : list A := flat_map slot_list os.

Lemma occupied_upd_none {A} (os : list (option A)) : forall m f, nth_error os m = Some (Some f) ->
  exists a b, occupied os = a ++ f :: b /\ occupied (upd os m None) = a ++ b.
Proof.
  induction os as [|s os IH]; intros [|m] f H; try discriminate; cbn [nth_error] in H.
  - injection H as ->. exists [], (occupied os). split; reflexivity.
  - destruct (IH m f H) as (a & b & E1 & E2). exists (slot_list s ++ a), b. unfold occupied in *. cbn [upd flat_map]. rewrite E1, E2, !app_assoc. split; reflexivity.
Qed.
Lemma occupied_upd_some {A} (os : list (option A)) : forall m s f, nth_error os m = Some s ->
  exists a b, occupied os = a ++ slot_list s ++ b /\ occupied (upd os m (Some f)) = a ++ f :: b.
Proof.
  induction os as [|s0 os IH]; intros [|m] s f H; try discriminate; cbn [nth_error] in H.
  - injection H as ->. exists [], (occupied os). split; reflexivity.
  - destruct (IH m s f H) as (a & b & E1 & E2). exists (slot_list s0 ++ a), b. unfold occupied in *. cbn [upd flat_map]. rewrite E1, E2, !app_assoc. split; reflexivity.
Qed.
Lemma map_upd {A B} (g : A -> B) (l : list A) : forall m x, map g (upd l m x) = upd (map g l) m (g x).
Proof. induction l as [|a l IH]; intros [|m] x; cbn [upd map]; [| | |rewrite IH]; reflexivity. Qed.
Lemma occupied_map {A B} (g : A -> B) (os : list (option A)) : occupied (map (option_map g) os) = map g (occupied os).
Proof. unfold occupied. induction os as [|[a|] os IH]; cbn [map option_map flat_map slot_list app]; [| |exact IH]; [reflexivity|]. rewrite IH. reflexivity. Qed.
Lemma in_occupied {A} (os : list (option A)) f : In f (occupied os) <-> exists m, nth_error os m = Some (Some f).
Proof.
  unfold occupied. rewrite in_flat_map. split.
  - intros (s & Hs & Hf). destruct s as [g|]; [|destruct Hf]. destruct Hf as [->|[] ]. apply In_nth_error in Hs. exact Hs.
  - intros (m & H). exists (Some f). split; [eapply nth_error_In; exact H|left; reflexivity].
Qed.

(** [os] are the frames in the mailboxes, as they were given to the driver *)
Record rel (x : bx_driver) (os : list (option frame)) : Prop := {
  rel_mailboxes : d_mailboxes (bx_can x) = map (option_map on_wire) os;
  rel_length : length os = 3%nat;
  rel_deadlines : length (bx_deadlines x) = 3%nat;
  rel_deadline : forall m f, nth_error os m = Some (Some f) -> nth_error (bx_deadlines x) m = Some (Some (f_ts f));
  rel_fits : forall f, In f (occupied os) -> fits f }.

Lemma rel_new banks : rel (bx_new banks) [None; None; None].
Proof. split; [reflexivity|reflexivity|reflexivity| |intros f []]. intros [|[|[|[|m] ] ] ] f H; discriminate. Qed.

Lemma pending_rel x os : rel x os -> pending (bx_can x) = map on_wire (occupied os).
Proof. intro H. rewrite <- occupied_map, <- (rel_mailboxes _ _ H). reflexivity. Qed.

Definition release (m : nat) (os : list (option frame)) : list (option frame) := match nth_error os m with Some (Some _) => upd os m None | _ => os end.
Definition at_slot (m : nat) (os : list (option frame)) : list frame := match nth_error os m with Some (Some f) => [f] | _ => [] end.

Lemma release_occupied m os : exists a b, occupied os = a ++ at_slot m os ++ b /\ occupied (release m os) = a ++ b.
Proof.
  unfold release, at_slot. destruct (nth_error os m) as [[f|]|] eqn:E; [|exists (occupied os), []; cbn [app]; rewrite app_nil_r; split; reflexivity..].
  destruct (occupied_upd_none os m f E) as (a & b & E1 & E2). exists a, b. split; assumption.
Qed.
Lemma release_length m os : length (release m os) = length os.
Proof. unfold release. destruct (nth_error os m) as [[f|]|]; [apply upd_length|reflexivity..]. Qed.
Lemma release_nth m os j f : nth_error (release m os) j = Some (Some f) -> nth_error os j = Some (Some f).
Proof.
  unfold release. destruct (nth_error os m) as [[g|]|]; [|exact (fun H => H)..]. rewrite nth_error_upd. destruct (m =? j)%nat; [|exact (fun H => H)].
  destruct (nth_error os j); discriminate.
Qed.
Lemma release_rel x os m can : rel x os -> d_mailboxes can = map (option_map on_wire) (release m os) -> rel (Bx can (bx_deadlines x) (bx_loopback x)) (release m os).
Proof.
  intros [H1 H2 H3 H4 H5] E. split; cbn [bx_can bx_deadlines]; [exact E|rewrite release_length; exact H2|exact H3| |].
  - intros j f H. apply H4, (release_nth m), H.
  - intros f H. apply H5. apply in_occupied in H. destruct H as (j & H). apply in_occupied. exists j. apply (release_nth m), H.
Qed.
Lemma mailbox_at x os m : rel x os -> nth_error (d_mailboxes (bx_can x)) m = match nth_error os m with Some s => Some (option_map on_wire s) | None => None end.
Proof. intro H. rewrite (rel_mailboxes _ _ H), nth_error_map. destruct (nth_error os m); reflexivity. Qed.

(** the hardware sends *)
Lemma send_rel x os m : rel x os ->
  rel (on_device (dev_send m) x) (release m os) /\ d_history (dev_send m (bx_can x)) = d_history (bx_can x) ++ map (fun f => Sent (on_wire f)) (at_slot m os) /\
  d_fifo (dev_send m (bx_can x)) = d_fifo (bx_can x) /\ d_banks (dev_send m (bx_can x)) = d_banks (bx_can x).
Proof.
  intro H. pose proof (mailbox_at x os m H) as E. unfold on_device, dev_send. rewrite E. unfold at_slot.
  assert (K : forall can, d_mailboxes can = map (option_map on_wire) (release m os) -> rel (Bx can (bx_deadlines x) (bx_loopback x)) (release m os)) by (intros can; apply release_rel, H).
  unfold release in *. destruct (nth_error os m) as [[f|]|]; cbn [option_map map].
  - split; [|split; [reflexivity|split; reflexivity] ]. apply K. cbn [d_mailboxes]. rewrite map_upd, (rel_mailboxes _ _ H). reflexivity.
  - split; [apply K, (rel_mailboxes _ _ H)|]. rewrite app_nil_r. split; [reflexivity|split; reflexivity].
  - split; [apply K, (rel_mailboxes _ _ H)|]. rewrite app_nil_r. split; [reflexivity|split; reflexivity].
Qed.
Lemma abort_rel now x os m : rel x os ->
  rel (on_device (dev_abort now m) x) (release m os) /\ d_history (dev_abort now m (bx_can x)) = d_history (bx_can x) ++ map (fun f => Aborted now (on_wire f)) (at_slot m os) /\
  d_fifo (dev_abort now m (bx_can x)) = d_fifo (bx_can x) /\ d_banks (dev_abort now m (bx_can x)) = d_banks (bx_can x).
Proof.
  intro H. pose proof (mailbox_at x os m H) as E. unfold on_device, dev_abort. rewrite E. unfold at_slot.
  assert (K : forall can, d_mailboxes can = map (option_map on_wire) (release m os) -> rel (Bx can (bx_deadlines x) (bx_loopback x)) (release m os)) by (intros can; apply release_rel, H).
  unfold release in *. destruct (nth_error os m) as [[f|]|]; cbn [option_map map].
  - split; [|split; [reflexivity|split; reflexivity] ]. apply K. cbn [d_mailboxes]. rewrite map_upd, (rel_mailboxes _ _ H). reflexivity.
  - split; [apply K, (rel_mailboxes _ _ H)|]. rewrite app_nil_r. split; [reflexivity|split; reflexivity].
  - split; [apply K, (rel_mailboxes _ _ H)|]. rewrite app_nil_r. split; [reflexivity|split; reflexivity].
Qed.

(** expired frames are aborted: [bs] are those that go *)
Definition expired_now (now : N) (f : frame) : bool := t_gt now (f_ts f).
Definition clean_slot (now : N) (m : nat) (os : list (option frame)) : list (option frame) := if existsb (expired_now now) (at_slot m os) then release m os else os.
Definition cleaned (now : N) (m : nat) (os : list (option frame)) : list frame := filter (expired_now now) (at_slot m os).

Lemma clean_mailbox_rel now x os m : rel x os ->
  let can := clean_mailbox (bx_deadlines x) now m (bx_can x) in
  rel (Bx can (bx_deadlines x) (bx_loopback x)) (clean_slot now m os) /\
  d_history can = d_history (bx_can x) ++ map (fun f => Aborted now (on_wire f)) (cleaned now m os) /\ d_fifo can = d_fifo (bx_can x) /\ d_banks can = d_banks (bx_can x).
Proof.
  intros H can. unfold can, clean_mailbox, clean_slot, cleaned. destruct (nth_error os m) as [[f|]|] eqn:E.
  - rewrite (rel_deadline _ _ H m f E). pose proof (abort_rel now x os m H) as A. unfold at_slot in *. rewrite E in *. cbn [existsb filter map] in *. unfold expired_now. rewrite orb_false_r.
    destruct (t_gt now (f_ts f)); [exact A|]. cbn [map]. rewrite app_nil_r. split; [|split; [|split]; reflexivity]. destruct x. exact H.
  - assert (N : dev_abort now m (bx_can x) = bx_can x) by (unfold dev_abort; rewrite (mailbox_at x os m H), E; reflexivity).
    unfold at_slot. rewrite E. cbn [existsb filter map]. rewrite N. assert (K : rel (Bx (bx_can x) (bx_deadlines x) (bx_loopback x)) os) by (destruct x; exact H).
    rewrite app_nil_r. destruct (nth_error (bx_deadlines x) m) as [[d|]|]; [destruct (t_gt now d)|..]; (split; [exact K|split; [|split]; reflexivity]).
  - assert (N : dev_abort now m (bx_can x) = bx_can x) by (unfold dev_abort; rewrite (mailbox_at x os m H), E; reflexivity).
    unfold at_slot. rewrite E. cbn [existsb filter map]. rewrite N. assert (K : rel (Bx (bx_can x) (bx_deadlines x) (bx_loopback x)) os) by (destruct x; exact H).
    rewrite app_nil_r. destruct (nth_error (bx_deadlines x) m) as [[d|]|]; [destruct (t_gt now d)|..]; (split; [exact K|split; [|split]; reflexivity]).
Qed.
Definition clean_all (now : N) (os : list (option frame)) : list (option frame) :=
  map (fun s => match s with Some f => if expired_now now f then None else s | None => None end) os.
Lemma clean_three now a b c : clean_slot now 2 (clean_slot now 1 (clean_slot now 0 [a; b; c])) = clean_all now [a; b; c].
Proof.
  unfold clean_all. cbn [map]. destruct a as [f|], b as [g|], c as [h|]; unfold clean_slot, at_slot, release; cbn [nth_error existsb upd];
    repeat match goal with |- context [expired_now now ?z] => destruct (expired_now now z) eqn:?; cbn [orb nth_error existsb upd] end; reflexivity.
Qed.
Lemma cleaned_three now a b c : cleaned now 0 [a; b; c] ++ cleaned now 1 (clean_slot now 0 [a; b; c]) ++ cleaned now 2 (clean_slot now 1 (clean_slot now 0 [a; b; c])) =
  filter (expired_now now) (occupied [a; b; c]).
Proof.
  unfold occupied, cleaned. cbn [flat_map]. rewrite app_nil_r, !filter_app. destruct a as [f|], b as [g|], c as [h|]; unfold clean_slot, at_slot, release; cbn [nth_error existsb upd slot_list filter app];
    repeat match goal with |- context [expired_now now ?z] => destruct (expired_now now z) eqn:?; cbn [orb nth_error existsb upd filter app] end; reflexivity.
Qed.
Lemma three {A} (l : list A) : length l = 3%nat -> exists a b c, l = [a; b; c].
Proof. destruct l as [|a [|b [|c [|d l] ] ] ]; try discriminate. intros _. exists a, b, c. reflexivity. Qed.

Lemma clean_rel now x os : rel x os ->
  let can := clean_expired (bx_deadlines x) now (bx_can x) in
  rel (Bx can (bx_deadlines x) (bx_loopback x)) (clean_all now os) /\
  d_history can = d_history (bx_can x) ++ map (fun f => Aborted now (on_wire f)) (filter (expired_now now) (occupied os)) /\ d_fifo can = d_fifo (bx_can x) /\ d_banks can = d_banks (bx_can x).
Proof.
  intros H can. unfold can, clean_expired. clear can.
  destruct (clean_mailbox_rel now x os 0 H) as (H0 & T0 & F0 & B0). destruct (clean_mailbox_rel now _ _ 1 H0) as (H1 & T1 & F1 & B1). cbn [bx_can bx_deadlines bx_loopback] in *.
  destruct (clean_mailbox_rel now _ _ 2 H1) as (H2 & T2 & F2 & B2). cbn [bx_can bx_deadlines bx_loopback] in *.
  destruct (three os (rel_length _ _ H)) as (a & b & c & ->). rewrite clean_three in H2. split; [exact H2|]. split; [|split; congruence].
  rewrite T2, T1, T0, <- !app_assoc, <- !map_app. do 2 f_equal. apply cleaned_three.
Qed.
Lemma clean_all_occupied now os : occupied (clean_all now os) = filter (fun f => negb (expired_now now f)) (occupied os).
Proof.
  unfold occupied, clean_all. induction os as [|[f|] os IH]; cbn [map flat_map slot_list app filter]; [reflexivity| |exact IH].
  destruct (expired_now now f); cbn [negb slot_list app]; rewrite IH; reflexivity.
Qed.
Lemma filter_split {A} (p : A -> bool) l : Permutation.Permutation l (filter p l ++ filter (fun a => negb (p a)) l).
Proof.
  induction l as [|a l IH]; [constructor|]. cbn [filter]. destruct (p a); cbn [negb].
  - cbn [app]. apply perm_skip, IH.
  - rewrite IH at 1. apply Permutation_middle.
Qed.

(** a frame is put in a mailbox *)
Lemma first_free_right mbs : match first_free mbs with Some m => nth_error mbs m = Some None | None => forall m, nth_error mbs m <> Some None end.
Proof.
  induction mbs as [|[b|] mbs IH]; cbn [first_free]; [intros [|m]; discriminate| |reflexivity].
  destruct (first_free mbs) as [m|]; [exact IH|]. intros [|m]; [discriminate|apply IH].
Qed.
Lemma lowest_bound mbs : mbs <> [] -> (lowest_priority mbs < length mbs)%nat.
Proof.
  induction mbs as [|mb mbs IH]; [congruence|]. intros _. cbn [lowest_priority length]. destruct (forallb _ mbs) eqn:E; [lia|].
  destruct mbs; [discriminate|]. specialize (IH ltac:(discriminate)). lia.
Qed.
Lemma lowest_right mbs : forall mb, In mb mbs -> exists w, nth_error mbs (lowest_priority mbs) = Some w /\ mailbox_id mb <= mailbox_id w.
Proof.
  induction mbs as [|c mbs IH]; [intros ? []|]. intros mb Hin. cbn [lowest_priority]. destruct (forallb _ mbs) eqn:E.
  - exists c. split; [reflexivity|]. rewrite forallb_forall in E. destruct Hin as [->|Hin]; [lia|]. apply E in Hin. apply N.leb_le in Hin. exact Hin.
  - cbn [nth_error]. assert (X : exists y, In y mbs /\ mailbox_id c < mailbox_id y).
    { clear IH Hin. induction mbs as [|y mbs IH]; [discriminate|]. cbn [forallb] in E. destruct (N.leb_spec (mailbox_id y) (mailbox_id c)) as [Hl|Hl].
      - destruct (IH E) as (z & Hz & Lz). exists z. split; [right; exact Hz|exact Lz].
      - exists y. split; [left; reflexivity|exact Hl]. }
    destruct Hin as [->|Hin]; [|exact (IH mb Hin)]. destruct X as (y & Hy & Ly). destruct (IH y Hy) as (w & Hw & Lw). exists w. split; [exact Hw|lia].
Qed.
Lemma next_mailbox_bound mbs : mbs <> [] -> (next_mailbox mbs < length mbs)%nat.
Proof.
  intro H. unfold next_mailbox. pose proof (first_free_right mbs) as F. destruct (first_free mbs) as [m|]; [|apply lowest_bound, H].
  apply nth_error_Some. congruence.
Qed.
Lemma to_bxcan_fits f : fits f -> to_bxcan f = Ok (on_wire f).
Proof.
  intros (H1 & H2 & _). unfold to_bxcan, on_wire. apply N.ltb_lt in H1. apply Nat.leb_le in H2. rewrite H1, H2. reflexivity.
Qed.
Lemma of_bxcan_wire f : fits f -> of_bxcan (on_wire f) (f_ts f) = Some (plain f).
Proof. intros (H & _). unfold of_bxcan, on_wire, plain. cbn [b_extended b_id b_data]. apply N.ltb_lt in H. rewrite H. reflexivity. Qed.

Definition outranks_all (f : frame) (os : list (option frame)) : bool := forallb (fun g => f_id f <? f_id g) (occupied os).
Lemma transmit_check f os : forallb (fun mb => match mb with Some p => b_id (on_wire f) <? b_id p | None => true end) (map (option_map on_wire) os) = outranks_all f os.
Proof. unfold outranks_all, occupied. induction os as [|[g|] os IH]; cbn [map option_map forallb flat_map slot_list app]; [reflexivity| |exact IH]. rewrite IH. reflexivity. Qed.

Lemma transmit_inner_rel f x os : rel x os -> fits f ->
  if outranks_all f os
  then exists x' m s, transmit_inner f (f_ts f) x = Ok (x', TxOk (option_map plain s)) /\ nth_error os m = Some s /\ rel x' (upd os m (Some f)) /\
         (s <> None -> (forall j, nth_error os j <> Some None) /\ forall g h, s = Some g -> In h (occupied os) -> f_id h <= f_id g) /\
         d_history (bx_can x') = d_history (bx_can x) /\ d_fifo (bx_can x') = d_fifo (bx_can x) /\ d_banks (bx_can x') = d_banks (bx_can x) /\ bx_loopback x' = bx_loopback x
  else transmit_inner f (f_ts f) x = Ok (x, TxWouldBlock).
Proof.
  intros H Hf. unfold transmit_inner. rewrite (to_bxcan_fits f Hf). unfold dev_transmit. rewrite (rel_mailboxes _ _ H), transmit_check.
  destruct (outranks_all f os); [|reflexivity]. set (mbs := map (option_map on_wire) os). set (m := next_mailbox mbs).
  assert (B : (m < length os)%nat).
  { pose proof (next_mailbox_bound mbs) as B. unfold mbs in B at 3. rewrite map_length in B. apply B. unfold mbs. pose proof (rel_length _ _ H). destruct os; discriminate. }
  destruct (nth_error os m) as [s|] eqn:Es; [|apply nth_error_None in Es; lia].
  assert (Em : nth_error mbs m = Some (option_map on_wire s)) by (unfold mbs; rewrite nth_error_map, Es; reflexivity). rewrite Em.
  eexists _, m, s. split.
  { apply f_equal. apply f_equal. apply f_equal. destruct s as [g|]; [|reflexivity]. rewrite (rel_deadline _ _ H m g Es). cbn [option_map]. apply of_bxcan_wire, (rel_fits _ _ H), in_occupied.
    exists m. exact Es. }
  split; [exact Es|]. split; [|split; [|split; [|split; [|split] ]; reflexivity] ].
  - split; cbn [bx_can d_mailboxes bx_deadlines].
    + unfold mbs. rewrite map_upd. reflexivity.
    + rewrite upd_length. exact (rel_length _ _ H).
    + rewrite upd_length. exact (rel_deadlines _ _ H).
    + intros j g E. rewrite nth_error_upd in E. rewrite nth_error_upd. destruct (Nat.eqb_spec m j) as [<-|Hne]; [|exact (rel_deadline _ _ H j g E)].
      rewrite Es in E. injection E as <-. destruct (nth_error (bx_deadlines x) m) eqn:Ed; [reflexivity|]. apply nth_error_None in Ed.
      pose proof (rel_length _ _ H). pose proof (rel_deadlines _ _ H). lia.
    + intros g Hg. destruct (occupied_upd_some os m s f Es) as (a & b & E1 & E2). rewrite E2 in Hg. apply in_app_iff in Hg.
      destruct Hg as [Hg|[<-|Hg] ]; [|exact Hf|]; apply (rel_fits _ _ H); rewrite E1, !in_app_iff; [left; exact Hg|right; right; exact Hg].
  - intro Hs. unfold m, next_mailbox in *. pose proof (first_free_right mbs) as F. destruct (first_free mbs) as [m0|].
    + rewrite F in Em. destruct s; [discriminate|congruence].
    + split.
      * intros j Ej. apply (F j). unfold mbs. rewrite nth_error_map, Ej. reflexivity.
      * intros g h -> Hh. apply in_occupied in Hh. destruct Hh as (j & Ej).
        assert (Hin : In (Some (on_wire h)) mbs) by (apply (nth_error_In mbs j); unfold mbs; rewrite nth_error_map, Ej; reflexivity).
        destruct (lowest_right mbs _ Hin) as (w & Ew & Lw). rewrite Em in Ew. injection Ew as <-. exact Lw.
Qed.

(** * Calls *)

Definition loopback_after (now : N) (f : frame) (l : list frame) : list frame :=
  if f_loop f && (length l <? LOOPBACK_CAPACITY)%nat then l ++ [Frame now (f_id f) true (f_data f)] else l.
Definition same_rx (d d' : device) : Prop := d_fifo d' = d_fifo d /\ d_banks d' = d_banks d.

Lemma bx_transmit_rel now f x os : rel x os -> fits f ->
  exists x' r os', bx_transmit now f x = Ok (x', r) /\ rel x' os' /\ same_rx (bx_can x) (bx_can x') /\
    d_history (bx_can x') = d_history (bx_can x) ++ map (fun g => Aborted now (on_wire g)) (filter (expired_now now) (occupied os)) /\
    if t_lt (f_ts f) now then r = TxOk None /\ os' = clean_all now os /\ bx_loopback x' = bx_loopback x
    else if outranks_all f (clean_all now os)
    then exists m s, r = TxOk (option_map plain s) /\ nth_error (clean_all now os) m = Some s /\ os' = upd (clean_all now os) m (Some f) /\
           (s <> None -> (forall j, nth_error (clean_all now os) j <> Some None) /\ forall g h, s = Some g -> In h (occupied (clean_all now os)) -> f_id h <= f_id g) /\
           bx_loopback x' = loopback_after now f (bx_loopback x)
    else r = TxWouldBlock /\ os' = clean_all now os /\ bx_loopback x' = bx_loopback x.
Proof.
  intros H Hf. destruct (clean_rel now x os H) as (C & T & F & B). set (can := clean_expired (bx_deadlines x) now (bx_can x)) in *.
  unfold bx_transmit. fold can. destruct (t_lt (f_ts f) now).
  { eexists _, _, (clean_all now os). split; [reflexivity|]. split; [exact C|]. split; [split; assumption|]. split; [exact T|]. split; [reflexivity|split; reflexivity]. }
  pose proof (transmit_inner_rel f _ _ C Hf) as K. destruct (outranks_all f (clean_all now os)).
  - destruct K as (x1 & m & s & E & Em & R & Hd & Eh & Ef & Eb & El). rewrite E. cbn [bx_can bx_loopback] in *.
    assert (L : forall l, l = bx_loopback x -> f_loop f && negb (LOOPBACK_CAPACITY <=? length l)%nat = f_loop f && (length (bx_loopback x) <? LOOPBACK_CAPACITY)%nat).
    { intros l ->. f_equal. rewrite Nat.leb_antisym, negb_involutive. reflexivity. }
    rewrite (L _ El). eexists _, _, (upd (clean_all now os) m (Some f)). split; [reflexivity|].
    assert (X : forall l, rel (Bx (bx_can x1) (bx_deadlines x1) l) (upd (clean_all now os) m (Some f))) by (intro l; destruct R as [R1 R2 R3 R4 R5]; split; assumption).
    split; [destruct (f_loop f && _); [apply X|exact R]|]. split.
    { destruct (f_loop f && _); cbn [bx_can]; split; congruence. }
    split; [destruct (f_loop f && _); cbn [bx_can]; congruence|].
    exists m, s. split; [reflexivity|]. split; [exact Em|]. split; [reflexivity|]. split; [exact Hd|].
    unfold loopback_after. destruct (f_loop f) eqn:Hl; cbn [andb]; [|exact El]. destruct (_ <? _)%nat; cbn [bx_loopback]; [|exact El]. rewrite El. reflexivity.
  - rewrite K. eexists _, _, (clean_all now os). split; [reflexivity|]. cbn [bx_can bx_loopback].
    split; [exact C|]. split; [split; assumption|]. split; [exact T|]. split; [reflexivity|split; reflexivity].
Qed.

(** * Histories *)

Import Permutation.
Record account (x : bx_driver) (os : list (option frame)) (out : list frame) (gone : list (N * frame)) : Prop := {
  acc_rel : rel x os;
  acc_sent : sent (bx_can x) = map on_wire out;
  acc_aborted : aborted (bx_can x) = map (fun p => (fst p, on_wire (snd p))) gone;
  acc_late : Forall (fun p => late (f_ts (snd p)) (fst p)) gone }.

Lemma sent_app d d' l : d_history d' = d_history d ++ l -> sent d' = sent d ++ flat_map (fun e => match e with Sent b => [b] | Aborted _ _ => [] end) l.
Proof. intro E. unfold sent. rewrite E, flat_map_app. reflexivity. Qed.
Lemma aborted_app d d' l : d_history d' = d_history d ++ l -> aborted d' = aborted d ++ flat_map (fun e => match e with Aborted t b => [(t, b)] | Sent _ => [] end) l.
Proof. intro E. unfold aborted. rewrite E, flat_map_app. reflexivity. Qed.
Lemma sent_of_sent l : flat_map (fun e => match e with Sent b => [b] | Aborted _ _ => [] end) (map (fun f => Sent (on_wire f)) l) = map on_wire l.
Proof. induction l as [|f l IH]; [reflexivity|]. cbn [map flat_map app]. rewrite IH. reflexivity. Qed.
Lemma sent_of_aborted now l : flat_map (fun e => match e with Sent b => [b] | Aborted _ _ => [] end) (map (fun f => Aborted now (on_wire f)) l) = [].
Proof. induction l as [|f l IH]; [reflexivity|]. exact IH. Qed.
Lemma aborted_of_sent l : flat_map (fun e => match e with Aborted t b => [(t, b)] | Sent _ => [] end) (map (fun f => Sent (on_wire f)) l) = [].
Proof. induction l as [|f l IH]; [reflexivity|]. exact IH. Qed.
Lemma aborted_of_aborted now l : flat_map (fun e => match e with Aborted t b => [(t, b)] | Sent _ => [] end) (map (fun f => Aborted now (on_wire f)) l) = map (fun f => (now, on_wire f)) l.
Proof. induction l as [|f l IH]; [reflexivity|]. cbn [map flat_map app]. rewrite IH. reflexivity. Qed.

Lemma account_send x os out gone m : account x os out gone -> account (on_device (dev_send m) x) (release m os) (out ++ at_slot m os) gone.
Proof.
  intros [H1 H2 H3 H4]. destruct (send_rel x os m H1) as (R & T & _). split; [exact R| | |exact H4]; cbn [on_device bx_can].
  - rewrite (sent_app _ _ _ T), sent_of_sent, H2, map_app. reflexivity.
  - rewrite (aborted_app _ _ _ T), aborted_of_sent, app_nil_r. exact H3.
Qed.
Lemma account_clean x x' os os' out gone now : account x os out gone -> now < 2 ^ 32 -> rel x' os' ->
  d_history (bx_can x') = d_history (bx_can x) ++ map (fun g => Aborted now (on_wire g)) (filter (expired_now now) (occupied os)) ->
  account x' os' out (gone ++ map (fun g => (now, g)) (filter (expired_now now) (occupied os))).
Proof.
  intros [H1 H2 H3 H4] Hn R T. split; [exact R| | |].
  - rewrite (sent_app _ _ _ T), sent_of_aborted, app_nil_r. exact H2.
  - rewrite (aborted_app _ _ _ T), aborted_of_aborted, H3, map_app, map_map. reflexivity.
  - rewrite Forall_app. split; [exact H4|]. rewrite Forall_map, Forall_forall. intros g Hg. apply filter_In in Hg. destruct Hg as (Hg & E). cbn [fst snd].
    apply t_gt_late; [exact Hn| |exact E]. apply (rel_fits _ _ H1 g Hg).
Qed.
Lemma account_rx x os out gone can lb : account x os out gone -> d_mailboxes can = d_mailboxes (bx_can x) -> d_history can = d_history (bx_can x) ->
  account (Bx can (bx_deadlines x) lb) os out gone.
Proof.
  intros [ [R1 R2 R3 R4 R5] H2 H3 H4] E1 E2. split; [split; cbn [bx_can bx_deadlines]; try assumption; congruence| | |exact H4]; unfold sent, aborted in *; cbn [bx_can]; rewrite E2; assumption.
Qed.

Lemma dev_arrive_same b d : d_mailboxes (dev_arrive b d) = d_mailboxes d /\ d_history (dev_arrive b d) = d_history d.
Proof. unfold dev_arrive. destruct (existsb _ _); split; reflexivity. Qed.
Lemma enable_banks_length fs : forall i banks banks', enable_banks i fs banks = Ok banks' -> length banks' = length banks.
Proof.
  induction fs as [|f fs IH]; intros i banks banks'; cbn [enable_banks]; [intro E; injection E as <-; reflexivity|].
  unfold enable_bank, store. destruct (i <? length banks)%nat; [|discriminate]. intro E. rewrite (IH _ _ _ E), upd_length. reflexivity.
Qed.
Lemma enable_banks_ok fs : forall i banks, (i + length fs <= length banks)%nat -> exists banks', enable_banks i fs banks = Ok banks'.
Proof.
  induction fs as [|f fs IH]; intros i banks H; cbn [enable_banks length] in *; [eexists; reflexivity|].
  unfold enable_bank, store. replace (i <? length banks)%nat with true by (symmetry; apply Nat.ltb_lt; lia). apply IH. rewrite upd_length. lia.
Qed.
Lemma clear_length banks : length (clear_banks banks) = length banks.
Proof. apply map_length. Qed.

(** * Filters *)

Lemma make_filters_valid ps local alloc : forall n l, make_filters ps local alloc n = Some l -> Forall (fun f => is_valid f = true) l.
Proof.
  induction ps as [|p ps IH]; intros n l; cbn [make_filters].
  - intro E. injection E as <-. constructor.
  - destruct (make_filter p local) as [f|] eqn:Ef; [|apply IH]. destruct (alloc n); [|discriminate].
    destruct (make_filters ps local alloc (S n)) as [l'|] eqn:El; [|discriminate]. cbn [option_map]. intro E. injection E as <-. constructor; [|exact (IH _ _ El)].
    destruct p, local; cbn in Ef; try discriminate; injection Ef as <-; apply filter_new_wf.
Qed.
Lemma optimize_filters_total local ps max alloc : (1 <= max)%nat ->
  (exists fs, optimize_filters local ps max alloc = Ok (Some fs) /\ (length fs <= max)%nat) \/ optimize_filters local ps max alloc = Ok None.
Proof.
  intro H. unfold optimize_filters. destruct (make_filters ps local alloc 0) as [l|] eqn:E; [|right; reflexivity]. left.
  destruct (optimize_spec l max ltac:(lia) (make_filters_valid _ _ _ _ _ E)) as (out & Eo & Hlen & _). rewrite Eo. exists out. split; [reflexivity|lia].
Qed.
Definition has_banks (n : nat) (x : bx_driver) : Prop := length (d_banks (bx_can x)) = n.
Lemma bx_accept_all_ok x : (1 <= length (d_banks (bx_can x)))%nat -> exists banks, bx_accept_all x = Ok (set_banks x banks) /\ length banks = length (d_banks (bx_can x)).
Proof.
  intro H. unfold bx_accept_all, enable_bank, store. rewrite clear_length. replace (0 <? length (d_banks (bx_can x)))%nat with true by (symmetry; apply Nat.ltb_lt; lia).
  eexists. split; [reflexivity|]. rewrite upd_length, clear_length. reflexivity.
Qed.
Lemma bx_filters_ok local ps alloc x : (1 <= length (d_banks (bx_can x)))%nat -> exists banks, bx_filters local ps alloc x = Ok (set_banks x banks) /\ length banks = length (d_banks (bx_can x)).
Proof.
  intro H. unfold bx_filters. destruct (optimize_filters_total local ps _ alloc H) as [(fs & E & L)|E]; rewrite E; [|apply bx_accept_all_ok, H].
  destruct (enable_banks_ok fs 0 (clear_banks (d_banks (bx_can x))) ltac:(rewrite clear_length; lia)) as (banks & Eb). rewrite Eb. exists banks. split; [reflexivity|].
  rewrite (enable_banks_length _ _ _ _ Eb). apply clear_length.
Qed.

(** * Accounting *)

Lemma clean_split now os : Permutation (occupied os) (filter (expired_now now) (occupied os) ++ occupied (clean_all now os)).
Proof. rewrite clean_all_occupied. apply filter_split. Qed.
Lemma snd_pairs (now : N) (l : list frame) : map snd (map (fun g => (now, g)) l) = l.
Proof. rewrite map_map. apply map_id. Qed.

Lemma step_account o x os out gone n : (1 <= n)%nat -> has_banks n x -> account x os out gone -> op_ok o ->
  exists x' r os' dout dgone back, bx_step o x = Ok (x', r) /\ has_banks n x' /\ account x' os' (out ++ dout) (gone ++ dgone) /\
    Permutation (occupied os ++ accepted (o, r)) (dout ++ map snd dgone ++ back ++ occupied os') /\ map plain back = displaced (o, r) /\
    (forall now f, o = OpTransmit now f -> Forall (fun g => ~ late (f_ts g) now) (occupied os')).
Proof.
  intros Hn Hb A Ho. destruct o as [now f|now|local ps alloc| |m|b|]; cbn [bx_step].
  - destruct Ho as (Ht & Hf). destruct (bx_transmit_rel now f x os (acc_rel _ _ _ _ A) Hf) as (x' & r & os' & E & R & (Ef & Eb) & T & K). rewrite E.
    set (ab := filter (expired_now now) (occupied os)) in *.
    assert (A' : account x' os' out (gone ++ map (fun g => (now, g)) ab)) by exact (account_clean x x' os os' out gone now A Ht R T).
    assert (Hc : Forall (fun g => ~ late (f_ts g) now) (occupied (clean_all now os))).
    { apply Forall_forall. intros g Hg L. rewrite clean_all_occupied in Hg. apply filter_In in Hg. destruct Hg as (Hg & En). unfold expired_now in En.
      apply t_gt_late in L; [|exact Ht|apply (rel_fits _ _ (acc_rel _ _ _ _ A) g Hg)]. rewrite L in En. discriminate. }
    assert (Hb' : has_banks n x') by (unfold has_banks in *; rewrite Eb; exact Hb).
    destruct (t_lt (f_ts f) now) eqn:El.
    + destruct K as (-> & -> & _). exists x', (OutTx (TxOk None)), (clean_all now os), [], (map (fun g => (now, g)) ab), []. split; [reflexivity|]. split; [exact Hb'|].
      split; [rewrite app_nil_r; exact A'|]. cbn [accepted displaced app map]. rewrite El. split; [rewrite app_nil_r, snd_pairs; apply clean_split|]. split; [reflexivity|].
      intros now' f' Eq. injection Eq as <- <-. exact Hc.
    + destruct (outranks_all f (clean_all now os)) eqn:Eo.
      * destruct K as (m & s & -> & Em & -> & _ & _). exists x', (OutTx (TxOk (option_map plain s))), (upd (clean_all now os) m (Some f)), [], (map (fun g => (now, g)) ab), (slot_list s).
        split; [reflexivity|]. split; [exact Hb'|]. split; [rewrite app_nil_r; exact A'|]. cbn [accepted app]. rewrite El, snd_pairs.
        destruct (occupied_upd_some _ m s f Em) as (a & b & E1 & E2). split; [|split].
        -- rewrite (clean_split now os). fold ab. rewrite E1, E2, <- !app_assoc. apply Permutation_app_head.
           rewrite (Permutation_app_swap_app a (slot_list s)). apply Permutation_app_head, Permutation_app_head. rewrite Permutation_app_comm. reflexivity.
        -- destruct s; reflexivity.
        -- intros now' f' Eq. injection Eq as <- <-. rewrite E2. rewrite E1, !Forall_app in Hc. destruct Hc as (Ha & _ & Hcb). rewrite Forall_app. split; [exact Ha|]. constructor; [|exact Hcb].
           intro L. apply t_gt_late in L; [|exact Ht|apply Hf]. rewrite (t_lt_gt now (f_ts f) Ht (proj2 (proj2 Hf)) El) in L. discriminate.
      * destruct K as (-> & -> & _). exists x', (OutTx TxWouldBlock), (clean_all now os), [], (map (fun g => (now, g)) ab), []. split; [reflexivity|]. split; [exact Hb'|].
        split; [rewrite app_nil_r; exact A'|]. cbn [accepted displaced app map]. split; [rewrite app_nil_r, snd_pairs; apply clean_split|]. split; [reflexivity|].
        intros now' f' Eq. injection Eq as <- <-. exact Hc.
  - unfold bx_receive. destruct (receive_from_bus now (d_fifo (bx_can x))) as [fifo r].
    set (can := Device (d_mailboxes (bx_can x)) (d_history (bx_can x)) fifo (d_banks (bx_can x))).
    assert (K : forall lb, account (Bx can (bx_deadlines x) lb) os out gone) by (intro lb; apply (account_rx x os out gone can lb A); reflexivity).
    assert (P : Permutation (occupied os ++ []) ([] ++ map snd (@nil (N * frame)) ++ [] ++ occupied os)) by (rewrite app_nil_r; reflexivity).
    destruct r as [f| |]; [|destruct (bx_loopback x) as [|f l]|];
      (eexists _, _, os, [], [], []; split; [reflexivity|split; [exact Hb|split; [rewrite !app_nil_r; apply K|split; [exact P|split; [reflexivity|intros ? ? E; discriminate E] ] ] ] ]).
  - destruct (bx_filters_ok local ps alloc x ltac:(rewrite Hb; exact Hn)) as (banks & E & L). rewrite E.
    eexists _, _, os, [], [], []. split; [reflexivity|]. split; [unfold has_banks, set_banks in *; cbn [bx_can d_banks]; lia|].
    split; [rewrite !app_nil_r; apply (account_rx x os out gone _ _ A); reflexivity|]. split; [cbn [accepted map app]; rewrite app_nil_r; reflexivity|]. split; [reflexivity|intros ? ? E'; discriminate E'].
  - destruct (bx_accept_all_ok x ltac:(rewrite Hb; exact Hn)) as (banks & E & L). rewrite E.
    eexists _, _, os, [], [], []. split; [reflexivity|]. split; [unfold has_banks, set_banks in *; cbn [bx_can d_banks]; lia|].
    split; [rewrite !app_nil_r; apply (account_rx x os out gone _ _ A); reflexivity|]. split; [cbn [accepted map app]; rewrite app_nil_r; reflexivity|]. split; [reflexivity|intros ? ? E'; discriminate E'].
  - destruct (send_rel x os m (acc_rel _ _ _ _ A)) as (_ & _ & _ & B). eexists _, _, (release m os), (at_slot m os), [], []. split; [reflexivity|]. split; [unfold has_banks in *; cbn [on_device bx_can]; congruence|].
    split; [rewrite !app_nil_r; apply account_send, A|]. cbn [accepted map app]. split; [|split; [reflexivity|intros ? ? E'; discriminate E'] ].
    destruct (release_occupied m os) as (a & b & E1 & E2). rewrite E1, E2, app_nil_r. apply Permutation_app_swap_app.
  - destruct (dev_arrive_same b (bx_can x)) as (E1 & E2). eexists _, _, os, [], [], []. split; [reflexivity|]. split.
    { unfold has_banks in *. cbn [on_device bx_can]. unfold dev_arrive. destruct (existsb _ _); exact Hb. }
    split; [rewrite !app_nil_r; apply (account_rx x os out gone _ _ A); assumption|]. split; [cbn [accepted map app]; rewrite app_nil_r; reflexivity|]. split; [reflexivity|intros ? ? E'; discriminate E'].
  - eexists _, _, os, [], [], []. split; [reflexivity|]. split; [exact Hb|].
    split; [rewrite !app_nil_r; apply (account_rx x os out gone _ _ A); reflexivity|]. split; [cbn [accepted map app]; rewrite app_nil_r; reflexivity|]. split; [reflexivity|intros ? ? E'; discriminate E'].
Qed.

Lemma bx_run_app a : forall b x, bx_run (a ++ b) x = match bx_run a x with Panic => Panic | Ok (x1, l) => match bx_run b x1 with Panic => Panic | Ok (x2, l') => Ok (x2, l ++ l') end end.
Proof.
  induction a as [|o a IH]; intros b x; cbn [bx_run app].
  - destruct (bx_run b x) as [ [x2 l]|]; reflexivity.
  - destruct (bx_step o x) as [ [x1 out]|]; [|reflexivity]. rewrite IH. destruct (bx_run a x1) as [ [x2 l]|]; [|reflexivity]. destruct (bx_run b x2) as [ [x3 l']|]; reflexivity.
Qed.
Lemma run_account ops n : (1 <= n)%nat -> Forall op_ok ops ->
  exists x outs os out gone back, bx_run ops (bx_new n) = Ok (x, outs) /\ has_banks n x /\ account x os out gone /\
    Permutation (flat_map accepted outs) (out ++ map snd gone ++ back ++ occupied os) /\ map plain back = flat_map displaced outs /\
    (forall ops0 now f, ops = ops0 ++ [OpTransmit now f] -> Forall (fun g => ~ late (f_ts g) now) (occupied os)).
Proof.
  intros Hn Hops. induction ops as [|o ops IH] using rev_ind.
  - exists (bx_new n), [], [None; None; None], [], [], []. split; [reflexivity|]. split; [apply repeat_length|]. split.
    { split; [apply rel_new|reflexivity|reflexivity|constructor]. }
    split; [constructor|]. split; [reflexivity|]. intros ops0 now f E. destruct ops0; discriminate E.
  - rewrite Forall_app in Hops. destruct Hops as (H1 & H2). destruct (IH H1) as (x & outs & os & out & gone & back & E & Hb & A & P & Eb & _). apply Forall_inv in H2.
    destruct (step_account o x os out gone n Hn Hb A H2) as (x' & r & os' & dout & dgone & back' & E' & Hb' & A' & P' & Eb' & L).
    exists x', (outs ++ [(o, r)]), os', (out ++ dout), (gone ++ dgone), (back ++ back'). split; [rewrite bx_run_app, E; cbn [bx_run]; rewrite E'; reflexivity|]. split; [exact Hb'|]. split; [exact A'|].
    rewrite !flat_map_app, !map_app. cbn [flat_map]. rewrite !app_nil_r, Eb, Eb'. split; [|split; [reflexivity|] ].
    + rewrite P, <- !app_assoc. apply Permutation_app_head.
      transitivity (map snd gone ++ back ++ (occupied os ++ accepted (o, r))); [rewrite <- ?app_assoc; reflexivity|]. rewrite P'.
      transitivity (dout ++ map snd gone ++ back ++ map snd dgone ++ back' ++ occupied os').
      * rewrite (app_assoc (map snd gone)). rewrite Permutation_app_swap_app. rewrite <- !app_assoc. reflexivity.
      * apply Permutation_app_head, Permutation_app_head. apply Permutation_app_swap_app.
    + intros ops0 now f Eq. apply app_inj_tail in Eq. destruct Eq as (_ & Eq). exact (L now f Eq).
Qed.
