(** Proofs about the frame queues. *)
From Verif Require Import Base BitLemmas CoreModel CanIdModel CanTxModel CanTxSpec CanTxProofs CanQueueModel CanQueueSpec.

(** ** lists *)
Lemma upd_length {A} (l : list A) i x : length (upd l i x) = length l.
Proof. revert i; induction l; intros [|i]; cbn; auto. Qed.
Lemma nth_error_upd {A} (l : list A) i j x : nth_error (upd l i x) j =
  if (i =? j)%nat then (match nth_error l j with Some _ => Some x | None => None end) else nth_error l j.
Proof.
  revert i j; induction l as [|y l IH]; intros i j.
  - cbn. destruct j; destruct (i =? _)%nat; reflexivity.
  - destruct i, j; cbn; auto.
Qed.
Lemma upd_app {A} (a : list A) y c x : upd (a ++ y :: c) (length a) x = a ++ x :: c.
Proof. induction a; cbn; congruence. Qed.
Lemma nth_error_ext {A} (l l' : list A) : (forall i, nth_error l i = nth_error l' i) -> l = l'.
Proof.
  revert l'; induction l as [|x l IH]; intros [|y l'] H; [reflexivity|specialize (H O); discriminate|specialize (H O); discriminate|].
  pose proof (H O) as H0; cbn in H0. rewrite (IH l'); [congruence|]. intro i. exact (H (S i)).
Qed.

(** ** the ring as a list *)
Definition ring (items : list frame) (head n : nat) : list frame :=
  map (fun i => nth ((head + i) mod length items) items frame_default) (seq 0 n).

Lemma ring_length items head n : length (ring items head n) = n.
Proof. unfold ring. rewrite map_length, seq_length. reflexivity. Qed.

Lemma ring_nth items head n i : (i < n)%nat -> (0 < length items)%nat ->
  nth_error (ring items head n) i = nth_error items ((head + i) mod length items).
Proof.
  intros Hi Hn. unfold ring. rewrite nth_error_map.
  rewrite (nth_error_nth' (seq 0 n) O) by (rewrite seq_length; assumption). rewrite seq_nth by assumption. cbn [option_map Nat.add].
  symmetry. apply nth_error_nth'. apply Nat.mod_upper_bound. lia.
Qed.
Lemma ring_nth_none items head n i : (n <= i)%nat -> nth_error (ring items head n) i = None.
Proof. intro. apply nth_error_None. rewrite ring_length. assumption. Qed.

Lemma mod_inj N head i j : (i < N)%nat -> (j < N)%nat -> ((head + i) mod N = (head + j) mod N)%nat -> i = j.
Proof.
  intros Hi Hj E. pose proof (Nat.div_mod (head + i) N ltac:(lia)) as E1. pose proof (Nat.div_mod (head + j) N ltac:(lia)) as E2.
  rewrite E in E1. set (p := ((head + i) / N)%nat) in *. set (q := ((head + j) / N)%nat) in *.
  clearbody p q. clear E. destruct (Nat.lt_trichotomy p q) as [H|[H|H]]; nia.
Qed.

Lemma ring_upd items head n j x : (j < n)%nat -> (n <= length items)%nat ->
  ring (upd items ((head + j) mod length items) x) head n = upd (ring items head n) j x.
Proof.
  intros Hj Hn. apply nth_error_ext. intro i. rewrite nth_error_upd.
  destruct (Nat.lt_ge_cases i n) as [Hi|Hi].
  - rewrite !ring_nth, upd_length, nth_error_upd by (rewrite ?upd_length; lia).
    destruct (Nat.eqb_spec j i) as [->|Hne]; [rewrite Nat.eqb_refl; reflexivity|].
    destruct (Nat.eqb_spec ((head + j) mod length items) ((head + i) mod length items)) as [E|E]; [|reflexivity].
    exfalso. apply Hne. apply (mod_inj (length items) head); [lia|lia|assumption].
  - rewrite !ring_nth_none by assumption. destruct (j =? i)%nat; reflexivity.
Qed.

Lemma step_back N head j : (0 < N)%nat -> (0 < j)%nat -> (((head + j) mod N + (N - 1)) mod N = (head + (j - 1)) mod N)%nat.
Proof.
  intros HN Hj. rewrite Nat.add_mod_idemp_l by lia. replace (head + j + (N - 1))%nat with (head + (j - 1) + 1 * N)%nat by lia.
  apply Nat.mod_add. lia.
Qed.
Lemma step_forward N head j : (0 < N)%nat -> (((head + j) mod N + 1) mod N = (head + S j) mod N)%nat.
Proof. intro HN. rewrite Nat.add_mod_idemp_l by lia. f_equal. lia. Qed.

Lemma at_head N head j : (head < N)%nat -> (j < N)%nat -> ((head + j) mod N =? head)%nat = (j =? 0)%nat.
Proof.
  intros Hh Hj. destruct (Nat.eqb_spec j 0) as [->|Hne].
  - rewrite Nat.add_0_r, Nat.mod_small by assumption. apply Nat.eqb_refl.
  - apply Nat.eqb_neq. intro E. apply Hne. apply (mod_inj N head); [assumption|lia|]. rewrite E, Nat.add_0_r, Nat.mod_small by assumption. reflexivity.
Qed.

Lemma ring_swap items head n i j x y : (i < n)%nat -> (j < n)%nat -> (n <= length items)%nat ->
  nth_error (ring items head n) i = Some x -> nth_error (ring items head n) j = Some y ->
  exists items', swap items ((head + i) mod length items) ((head + j) mod length items) = Ok items' /\ length items' = length items /\
    ring items' head n = upd (upd (ring items head n) i y) j x.
Proof.
  intros Hi Hj Hn Hx Hy. rewrite ring_nth in Hx, Hy by lia. unfold swap. rewrite Hx, Hy. eexists. split; [reflexivity|].
  split; [rewrite !upd_length; reflexivity|].
  set (u := upd items ((head + i) mod length items) y).
  assert (Hu : length u = length items) by apply upd_length.
  rewrite <- Hu at 1. rewrite ring_upd by lia. f_equal. unfold u. apply ring_upd; lia.
Qed.

Lemma to_front_spec head n f id : f_id f = id ->
  forall a fuel items c, (length a <= fuel)%nat -> (n <= length items)%nat -> (head < length items)%nat ->
  ring items head n = a ++ f :: c ->
  exists items' a1 a2, aq_to_front fuel items head ((head + length a) mod length items) id = Ok items' /\ length items' = length items /\
    a = a1 ++ a2 /\ ring items' head n = a1 ++ f :: a2 ++ c /\ Forall (fun x => id < f_id x) a2 /\
    (a1 = [] \/ exists a1' y, a1 = a1' ++ [y] /\ f_id y <= id).
Proof.
  intros Hid a. induction a as [|y a IH] using rev_ind; intros fuel items c Hf Hn Hh Hr.
  - exists items, [], []. cbn [length] in *. replace (aq_to_front fuel items head ((head + 0) mod length items) id) with (Ok items).
    + repeat split; auto.
    + destruct fuel; cbn [aq_to_front]; rewrite at_head, Nat.eqb_refl by lia; reflexivity.
  - rewrite app_length in Hf. cbn [length] in Hf.
    assert (Hl : (length a + 1 + 1 + length c = n)%nat).
    { rewrite <- (ring_length items head n), Hr, !app_length. cbn [length]. lia. }
    destruct fuel as [|fuel]; [lia|]. cbn [aq_to_front]. rewrite app_length. cbn [length].
    rewrite at_head by lia. replace (length a + 1 =? 0)%nat with false by (symmetry; apply Nat.eqb_neq; lia).
    rewrite step_back by lia. replace (length a + 1 - 1)%nat with (length a) by lia.
    assert (Hy : nth_error (ring items head n) (length a) = Some y).
    { rewrite Hr, <- app_assoc. rewrite nth_error_app2, Nat.sub_diag by lia. reflexivity. }
    assert (Hfx : nth_error (ring items head n) (length a + 1) = Some f).
    { rewrite Hr. rewrite nth_error_app2 by (rewrite app_length; cbn; lia). rewrite app_length. cbn [length]. rewrite Nat.sub_diag. reflexivity. }
    unfold fetch. rewrite <- (ring_nth items head n (length a)) by lia. rewrite Hy.
    destruct (N.leb_spec (f_id y) id) as [Hle|Hgt].
    + exists items, (a ++ [y]), []. rewrite app_nil_r. repeat split; auto. right. eauto.
    + destruct (ring_swap items head n (length a + 1) (length a) f y ltac:(lia) ltac:(lia) Hn Hfx Hy) as (items1 & -> & Hl1 & Hr1).
      rewrite <- Hl1. destruct (IH fuel items1 (y :: c)) as (items' & a1 & a2 & Hrun & Hl2 & Ha & Hring & Hall & Hlast); [lia|lia|lia| |].
      { rewrite Hr1, Hr, <- app_assoc. cbn [app].
        replace (a ++ y :: f :: c) with ((a ++ [y]) ++ f :: c) by (rewrite <- app_assoc; reflexivity).
        replace (length a + 1)%nat with (length (a ++ [y])) by (rewrite app_length; reflexivity).
        rewrite upd_app. rewrite <- app_assoc. cbn [app]. apply upd_app. }
      exists items', a1, (a2 ++ [y]). split; [exact Hrun|]. split; [lia|]. split; [rewrite Ha, <- app_assoc; reflexivity|].
      split; [rewrite Hring, <- app_assoc; reflexivity|]. split; [apply Forall_app; auto|exact Hlast].
Qed.

Lemma to_back_spec head n f id : f_id f = id ->
  forall c fuel items a, (length c <= fuel)%nat -> (n <= length items)%nat -> (head < length items)%nat ->
  ring items head n = a ++ f :: c ->
  exists items' c1 c2, aq_to_back fuel items ((head + (n - 1)) mod length items) ((head + length a) mod length items) id = Ok items' /\
    length items' = length items /\ c = c1 ++ c2 /\ ring items' head n = a ++ c1 ++ f :: c2 /\ Forall (fun x => f_id x < id) c1 /\
    (c2 = [] \/ exists y c2', c2 = y :: c2' /\ id <= f_id y).
Proof.
  intros Hid c. induction c as [|y c IH]; intros fuel items a Hf Hn Hh Hr.
  - assert (Hl : (length a + 1 = n)%nat) by (rewrite <- (ring_length items head n), Hr, app_length; reflexivity).
    exists items, [], []. replace (length a) with (n - 1)%nat by lia.
    replace (aq_to_back fuel items ((head + (n - 1)) mod length items) ((head + (n - 1)) mod length items) id) with (Ok items).
    + repeat split; auto.
    + destruct fuel; cbn [aq_to_back]; rewrite Nat.eqb_refl; reflexivity.
  - assert (Hl : (length a + 2 + length c = n)%nat) by (rewrite <- (ring_length items head n), Hr, app_length; cbn [length]; lia).
    cbn [length] in Hf. destruct fuel as [|fuel]; [lia|]. cbn [aq_to_back].
    destruct (Nat.eqb_spec ((head + length a) mod length items) ((head + (n - 1)) mod length items)) as [E|_].
    { apply mod_inj in E; lia. }
    rewrite step_forward by lia.
    assert (Hfx : nth_error (ring items head n) (length a) = Some f) by (rewrite Hr, nth_error_app2, Nat.sub_diag by lia; reflexivity).
    assert (Hy : nth_error (ring items head n) (S (length a)) = Some y).
    { rewrite Hr, nth_error_app2 by lia. replace (S (length a) - length a)%nat with 1%nat by lia. reflexivity. }
    unfold fetch. rewrite <- (ring_nth items head n (S (length a))) by lia. rewrite Hy.
    destruct (N.leb_spec id (f_id y)) as [Hle|Hgt].
    + exists items, [], (y :: c). repeat split; auto. right. eauto.
    + destruct (ring_swap items head n (length a) (S (length a)) f y ltac:(lia) ltac:(lia) Hn Hfx Hy) as (items1 & -> & Hl1 & Hr1).
      rewrite <- Hl1. destruct (IH fuel items1 (a ++ [y])) as (items' & c1 & c2 & Hrun & Hl2 & Ha & Hring & Hall & Hhd); [lia|lia|lia| |].
      { rewrite Hr1, Hr, upd_app. replace (S (length a)) with (length (a ++ [y])) by (rewrite app_length; cbn; lia).
        replace (a ++ y :: y :: c) with ((a ++ [y]) ++ y :: c) by (rewrite <- app_assoc; reflexivity). apply upd_app. }
      rewrite app_length in Hrun. cbn [length] in Hrun. rewrite Nat.add_1_r in Hrun.
      exists items', (y :: c1), c2. split; [exact Hrun|]. split; [lia|]. split; [rewrite Ha; reflexivity|].
      split; [rewrite Hring, <- app_assoc; reflexivity|]. split; [constructor; assumption|exact Hhd].
Qed.

(** ** operations *)
Definition aq_ok (q : array_queue) : Prop :=
  (aq_length q <= length (aq_items q))%nat /\ (length (aq_items q) = O \/ (aq_head q < length (aq_items q))%nat).
Definition contents (q : array_queue) : list frame := ring (aq_items q) (aq_head q) (aq_length q).
Definition capacity (q : array_queue) : nat := length (aq_items q).

(** the queue holds [l], in this order *)
Definition holds (cap : nat) (q : array_queue) (l : list frame) : Prop :=
  aq_ok q /\ contents q = l /\ capacity q = cap /\ by_priority l.

Lemma holds_length cap q l : holds cap q l -> length l = aq_length q /\ (length l <= cap)%nat.
Proof. intros ((H1 & _) & <- & <- & _). unfold contents, capacity. rewrite ring_length. auto. Qed.

Lemma holds_new cap : holds cap (aq_new cap) [].
Proof.
  unfold holds, aq_ok, contents, capacity. cbn. rewrite repeat_length. repeat split; [lia|lia|]. constructor.
Qed.

Lemma sorted_split l : by_priority l -> forall id a1 a2, l = a1 ++ a2 -> Forall (fun x => id < f_id x) a2 ->
  (a1 = [] \/ exists a1' y, a1 = a1' ++ [y] /\ f_id y <= id) -> Forall (fun x => f_id x <= id) a1.
Proof.
  intros Hs id a1 a2 -> _ [->|(a & y & -> & Hy)]; [constructor|].
  rewrite <- app_assoc in Hs. induction a as [|x a IH].
  - constructor; [assumption|constructor].
  - cbn [app] in *. inversion Hs as [|? ? Hs' Hall]; subst. constructor.
    + rewrite Forall_forall in Hall. specialize (Hall y). cbn in Hall. assert (f_id x <= f_id y) by (apply Hall; apply in_or_app; right; left; reflexivity). lia.
    + apply IH. assumption.
Qed.
Lemma insert_behind_split f a1 a2 : Forall (fun x => f_id x <= f_id f) a1 -> Forall (fun x => f_id f < f_id x) a2 ->
  insert_behind f (a1 ++ a2) = a1 ++ f :: a2.
Proof.
  intros H1 H2. induction H1 as [|x a1 Hx _ IH]; cbn [app insert_behind].
  - destruct H2 as [|y a2 Hy _]; [reflexivity|]. cbn [insert_behind]. replace (f_id y <=? f_id f) with false; [reflexivity|]. symmetry. apply N.leb_gt. assumption.
  - replace (f_id x <=? f_id f) with true by (symmetry; apply N.leb_le; assumption). congruence.
Qed.
Lemma sorted_tail_ge l : by_priority l -> forall id c1 c2, l = c1 ++ c2 ->
  (c2 = [] \/ exists y c2', c2 = y :: c2' /\ id <= f_id y) -> Forall (fun x => id <= f_id x) c2.
Proof.
  intros Hs id c1 c2 -> [->|(y & c & -> & Hy)]; [constructor|]. induction c1 as [|x c1 IH].
  - cbn in Hs. inversion Hs as [|? ? Hs' Hall]; subst. constructor; [assumption|]. eapply Forall_impl; [|exact Hall]. cbn. intros; lia.
  - apply IH. cbn in Hs. inversion Hs; assumption.
Qed.
Lemma insert_before_split f c1 c2 : Forall (fun x => f_id x < f_id f) c1 -> Forall (fun x => f_id f <= f_id x) c2 ->
  insert_before f (c1 ++ c2) = c1 ++ f :: c2.
Proof.
  intros H1 H2. induction H1 as [|x a1 Hx _ IH]; cbn [app insert_before].
  - destruct H2 as [|y a2 Hy _]; [reflexivity|]. cbn [insert_before]. replace (f_id y <? f_id f) with false; [reflexivity|]. symmetry. apply N.ltb_ge. assumption.
  - replace (f_id x <? f_id f) with true by (symmetry; apply N.ltb_lt; assumption). congruence.
Qed.

Lemma insert_behind_in f l x : In x (insert_behind f l) <-> x = f \/ In x l.
Proof. induction l as [|y l IH]; cbn; [intuition|]. destruct (f_id y <=? f_id f); cbn; [rewrite IH|]; intuition. Qed.
Lemma insert_before_in f l x : In x (insert_before f l) <-> x = f \/ In x l.
Proof. induction l as [|y l IH]; cbn; [intuition|]. destruct (f_id y <? f_id f); cbn; [rewrite IH|]; intuition. Qed.
Lemma insert_behind_sorted f l : by_priority l -> by_priority (insert_behind f l).
Proof.
  unfold by_priority. induction 1 as [|y l Hs IH Hall]; cbn [insert_behind]; [repeat constructor|].
  destruct (N.leb_spec (f_id y) (f_id f)) as [Hle|Hgt].
  - constructor; [assumption|]. apply Forall_forall. intros x Hx. apply insert_behind_in in Hx as [->|Hx]; [assumption|]. rewrite Forall_forall in Hall. auto.
  - constructor; [constructor; assumption|]. constructor; [lia|]. eapply Forall_impl; [|exact Hall]. cbn. intros; lia.
Qed.
Lemma insert_before_sorted f l : by_priority l -> by_priority (insert_before f l).
Proof.
  unfold by_priority. induction 1 as [|y l Hs IH Hall]; cbn [insert_before]; [repeat constructor|].
  destruct (N.ltb_spec (f_id y) (f_id f)) as [Hle|Hgt].
  - constructor; [assumption|]. apply Forall_forall. intros x Hx. apply insert_before_in in Hx as [->|Hx]; [lia|]. rewrite Forall_forall in Hall. auto.
  - constructor; [constructor; assumption|]. constructor; [lia|]. eapply Forall_impl; [|exact Hall]. cbn. intros; lia.
Qed.
Lemma insert_behind_length f l : length (insert_behind f l) = S (length l).
Proof. induction l as [|y l IH]; cbn; [reflexivity|]. destruct (f_id y <=? f_id f); cbn; congruence. Qed.
Lemma insert_before_length f l : length (insert_before f l) = S (length l).
Proof. induction l as [|y l IH]; cbn; [reflexivity|]. destruct (f_id y <? f_id f); cbn; congruence. Qed.
Lemma insert_before_front f l : by_priority (f :: l) -> insert_before f l = f :: l.
Proof.
  intro H. destruct l as [|x l]; [reflexivity|]. cbn. inversion H as [|? ? _ Hall]; subst. inversion Hall as [|? ? Hx _]; subst.
  replace (f_id x <? f_id f) with false; [reflexivity|]. symmetry. apply N.ltb_ge. assumption.
Qed.

Lemma aq_push_spec cap q l f : holds cap q l ->
  if (length l <? cap)%nat then exists q', aq_push q f = Ok (q', true) /\ holds cap q' (insert_behind f l)
  else aq_push q f = Ok (q, false).
Proof.
  intro H. pose proof (holds_length _ _ _ H) as (Hlen & Hle). destruct H as ((Hl & Hh) & Hc & Hcap & Hs).
  unfold capacity in Hcap. unfold aq_push. rewrite Hcap. rewrite Hcap in Hl, Hh. rewrite Hlen.
  destruct (Nat.ltb_spec (aq_length q) cap) as [Hlt|Hge].
  2:{ replace (aq_length q =? cap)%nat with true by (symmetry; apply Nat.eqb_eq; lia). reflexivity. }
  replace (aq_length q =? cap)%nat with false by (symmetry; apply Nat.eqb_neq; lia).
  unfold store. rewrite Hcap. destruct (Nat.ltb_spec ((aq_head q + aq_length q) mod cap) cap) as [_|Hx].
  2:{ pose proof (Nat.mod_upper_bound (aq_head q + aq_length q) cap ltac:(lia)). lia. }
  set (items1 := upd (aq_items q) ((aq_head q + aq_length q) mod cap) f).
  assert (Hl1 : length items1 = cap) by (unfold items1; rewrite upd_length; assumption).
  assert (Hr1 : ring items1 (aq_head q) (aq_length q + 1) = l ++ [f]).
  { apply nth_error_ext. intro i. destruct (Nat.lt_ge_cases i (aq_length q + 1)) as [Hi|Hi].
    - rewrite ring_nth by lia. rewrite Hl1. unfold items1. rewrite nth_error_upd.
      destruct (Nat.eq_dec i (aq_length q)) as [->|Hne].
      + rewrite Nat.eqb_refl. rewrite nth_error_app2, Hlen, Nat.sub_diag by lia. cbn [nth_error].
        destruct (nth_error (aq_items q) ((aq_head q + aq_length q) mod cap)) eqn:E; [reflexivity|]. apply nth_error_None in E.
        pose proof (Nat.mod_upper_bound (aq_head q + aq_length q) cap ltac:(lia)). lia.
      + destruct (Nat.eqb_spec ((aq_head q + aq_length q) mod cap) ((aq_head q + i) mod cap)) as [E|_]; [apply mod_inj in E; lia|].
        rewrite nth_error_app1 by lia. rewrite <- Hc. unfold contents. rewrite ring_nth by lia. rewrite Hcap. reflexivity.
    - rewrite ring_nth_none by assumption. symmetry. apply nth_error_None. rewrite app_length. cbn. lia. }
  destruct (to_front_spec (aq_head q) (aq_length q + 1) f (f_id f) eq_refl l cap items1 []) as (items' & a1 & a2 & Hrun & Hl2 & Ha & Hring & Hall & Hlast);
    [lia|lia|lia|exact Hr1|].
  rewrite Hl1, Hlen in Hrun. rewrite Hrun. eexists. split; [reflexivity|].
  assert (Heq : insert_behind f l = a1 ++ f :: a2).
  { rewrite Ha. apply insert_behind_split; [|assumption]. eapply sorted_split; eassumption. }
  split; [|split; [|split]].
  - unfold aq_ok. cbn [aq_items aq_head aq_length]. rewrite Hl2, Hl1. lia.
  - unfold contents. cbn [aq_items aq_head aq_length]. rewrite Hring, app_nil_r, Heq. reflexivity.
  - unfold capacity. cbn [aq_items]. lia.
  - apply insert_behind_sorted. assumption.
Qed.

Lemma aq_pop_spec cap q l : holds cap q l ->
  match l with
  | [] => aq_pop q = Ok (q, None)
  | f :: r => exists q', aq_pop q = Ok (q', Some f) /\ holds cap q' r
  end.
Proof.
  intro H. pose proof (holds_length _ _ _ H) as (Hlen & Hle). destruct H as ((Hl & Hh) & Hc & Hcap & Hs).
  unfold capacity in Hcap. unfold aq_pop. rewrite <- Hlen. destruct l as [|f r]; [reflexivity|]. cbn [length Nat.eqb] in *.
  assert (Hn : (0 < length (aq_items q))%nat) by lia.
  assert (H0 : nth_error (aq_items q) (aq_head q) = Some f).
  { replace (aq_head q) with ((aq_head q + 0) mod length (aq_items q))%nat by (rewrite Nat.add_0_r; apply Nat.mod_small; lia).
    rewrite <- (ring_nth _ _ (aq_length q)) by lia. change (ring _ _ _) with (contents q). rewrite Hc. reflexivity. }
  unfold fetch. rewrite H0. eexists. split; [reflexivity|]. unfold aq_inc.
  replace (length (aq_items q) =? 0)%nat with false by (symmetry; apply Nat.eqb_neq; lia).
  split; [|split; [|split]].
  - unfold aq_ok. cbn [aq_items aq_head aq_length]. rewrite upd_length. split; [lia|]. right. apply Nat.mod_upper_bound. lia.
  - unfold contents. cbn [aq_items aq_head aq_length]. apply nth_error_ext. intro i. destruct (Nat.lt_ge_cases i (length r)) as [Hi|Hi].
    + rewrite ring_nth by (rewrite ?upd_length; lia). rewrite upd_length, nth_error_upd, Nat.add_mod_idemp_l by lia.
      replace (aq_head q + 1 + i)%nat with (aq_head q + S i)%nat by lia.
      rewrite Nat.eqb_sym, at_head by lia. cbn [Nat.eqb].
      rewrite <- (ring_nth _ _ (aq_length q)) by lia. change (ring _ _ _) with (contents q). rewrite Hc. reflexivity.
    + rewrite ring_nth_none by lia. symmetry. apply nth_error_None. assumption.
  - unfold capacity. cbn [aq_items]. rewrite upd_length. assumption.
  - inversion Hs; assumption.
Qed.

Lemma aq_peek_spec cap q l : holds cap q l -> aq_peek q = Ok (hd_error l).
Proof.
  intro H. pose proof (aq_pop_spec cap q l H) as Hp. unfold aq_peek. unfold aq_pop in Hp. pose proof (holds_length _ _ _ H) as (Hlen & _).
  rewrite <- Hlen in *. destruct l as [|f r]; [reflexivity|]. cbn [length Nat.eqb hd_error] in *.
  destruct Hp as (q' & Hp & _). destruct (fetch (aq_items q) (aq_head q)); congruence.
Qed.

Lemma aq_return_spec cap q l f : holds cap q l ->
  if (length l <? cap)%nat then exists q', aq_return q f = Ok (q', true) /\ holds cap q' (insert_before f l)
  else aq_return q f = Ok (q, false).
Proof.
  intro H. pose proof (holds_length _ _ _ H) as (Hlen & Hle). destruct H as ((Hl & Hh) & Hc & Hcap & Hs).
  unfold capacity in Hcap. unfold aq_return. rewrite Hcap. rewrite Hcap in Hl, Hh. rewrite Hlen.
  destruct (Nat.ltb_spec (aq_length q) cap) as [Hlt|Hge].
  2:{ replace (aq_length q =? cap)%nat with true by (symmetry; apply Nat.eqb_eq; lia). reflexivity. }
  replace (aq_length q =? cap)%nat with false by (symmetry; apply Nat.eqb_neq; lia).
  unfold store. rewrite Hcap. unfold aq_dec. replace (cap =? 0)%nat with false by (symmetry; apply Nat.eqb_neq; lia).
  set (h := ((aq_head q + (cap - 1)) mod cap)%nat). assert (Hhb : (h < cap)%nat) by (apply Nat.mod_upper_bound; lia).
  replace (h <? cap)%nat with true by (symmetry; apply Nat.ltb_lt; assumption).
  set (items1 := upd (aq_items q) h f).
  assert (Hl1 : length items1 = cap) by (unfold items1; rewrite upd_length; assumption).
  assert (Hstep : forall i, ((h + S i) mod cap = (aq_head q + i) mod cap)%nat).
  { intro i. unfold h. rewrite Nat.add_mod_idemp_l by lia. replace (aq_head q + (cap - 1) + S i)%nat with (aq_head q + i + 1 * cap)%nat by lia. apply Nat.mod_add. lia. }
  assert (Hr1 : ring items1 h (aq_length q + 1) = [] ++ f :: l).
  { apply nth_error_ext. intro i. destruct (Nat.lt_ge_cases i (aq_length q + 1)) as [Hi|Hi].
    - rewrite ring_nth by lia. rewrite Hl1. unfold items1. rewrite nth_error_upd. destruct i as [|i].
      + rewrite Nat.add_0_r, (Nat.mod_small h) by assumption. rewrite Nat.eqb_refl. cbn [app nth_error].
        destruct (nth_error (aq_items q) h) eqn:E; [reflexivity|]. apply nth_error_None in E. lia.
      + rewrite Nat.eqb_sym, at_head by lia. cbn [Nat.eqb app nth_error]. rewrite Hstep, <- Hc. unfold contents. rewrite ring_nth by lia. rewrite Hcap. reflexivity.
    - rewrite ring_nth_none by assumption. symmetry. apply nth_error_None. cbn. lia. }
  destruct (to_back_spec h (aq_length q + 1) f (f_id f) eq_refl l cap items1 []) as (items' & c1 & c2 & Hrun & Hl2 & Ha & Hring & Hall & Hhd);
    [lia|lia|lia|exact Hr1|].
  rewrite Hl1 in Hrun. cbn [length] in Hrun. rewrite Nat.add_0_r, (Nat.mod_small h) in Hrun by assumption. rewrite Hrun.
  eexists. split; [reflexivity|].
  assert (Heq : insert_before f l = c1 ++ f :: c2).
  { rewrite Ha. apply insert_before_split; [assumption|]. eapply sorted_tail_ge; eassumption. }
  split; [|split; [|split]].
  - unfold aq_ok. cbn [aq_items aq_head aq_length]. rewrite Hl2, Hl1. lia.
  - unfold contents. cbn [aq_items aq_head aq_length]. rewrite Hring, Heq. reflexivity.
  - unfold capacity. cbn [aq_items]. lia.
  - apply insert_before_sorted. assumption.
Qed.

Lemma aq_reserve_spec cap q l n : holds cap q l -> aq_reserve q n = Ok (length l + n <=? cap)%nat.
Proof.
  intro H. pose proof (holds_length _ _ _ H) as (Hlen & Hle). destruct H as ((Hl & _) & _ & Hcap & _). unfold capacity in Hcap.
  unfold aq_reserve. rewrite Hcap in *. rewrite <- Hlen.
  replace (cap <? length l)%nat with false by (symmetry; apply Nat.ltb_ge; assumption).
  f_equal. destruct (Nat.leb_spec n (cap - length l)), (Nat.leb_spec (length l + n) cap); try reflexivity; lia.
Qed.

Lemma aq_step_spec cap q l op : holds cap q l ->
  exists q', aq_step q op = Ok (q', snd (spec_step cap l op)) /\ holds cap q' (fst (spec_step cap l op)).
Proof.
  intro H. destruct op as [n|f| | |f]; cbn [aq_step spec_step].
  - rewrite (aq_reserve_spec cap q l n H). eauto.
  - pose proof (aq_push_spec cap q l f H) as Hp. destruct (length l <? cap)%nat.
    + destruct Hp as (q' & -> & Hq). eauto.
    + rewrite Hp. eauto.
  - rewrite (aq_peek_spec cap q l H). eauto.
  - pose proof (aq_pop_spec cap q l H) as Hp. destruct l as [|f r].
    + rewrite Hp. eauto.
    + destruct Hp as (q' & -> & Hq). eauto.
  - pose proof (aq_return_spec cap q l f H) as Hp. destruct (length l <? cap)%nat.
    + destruct Hp as (q' & -> & Hq). eauto.
    + rewrite Hp. eauto.
Qed.

Lemma aq_run_spec cap ops : forall q l, holds cap q l ->
  exists q', aq_run q ops = Ok (q', snd (spec_run cap l ops)) /\ holds cap q' (fst (spec_run cap l ops)).
Proof.
  induction ops as [|op ops IH]; intros q l H; cbn [aq_run spec_run]; [eauto|].
  destruct (aq_step_spec cap q l op H) as (q1 & -> & H1). destruct (spec_step cap l op) as [l1 o]. cbn [fst snd] in *.
  destruct (IH q1 l1 H1) as (q2 & -> & H2). destruct (spec_run cap l1 ops) as [l2 os]. cbn [fst snd] in *. eauto.
Qed.

Lemma drain_spec cap l : forall q fuel, holds cap q l -> (length l <= fuel)%nat -> drain fuel q = l.
Proof.
  induction l as [|f l IH]; intros q fuel H Hf; pose proof (aq_pop_spec cap q _ H) as Hp; cbn beta iota in Hp.
  - destruct fuel; [reflexivity|]. cbn [drain]. rewrite Hp. reflexivity.
  - destruct Hp as (q' & Hp & H'). cbn [length] in Hf. destruct fuel; [lia|]. cbn [drain]. rewrite Hp. f_equal. apply IH; [assumption|lia].
Qed.

(** one operation, seen through each identifier *)
Lemma with_id_behind id f l : by_priority l ->
  with_id id (insert_behind f l) = if f_id f =? id then with_id id l ++ [f] else with_id id l.
Proof.
  unfold with_id, by_priority. induction 1 as [|x l Hs IH Hall]; cbn [insert_behind filter].
  - destruct (f_id f =? id); reflexivity.
  - destruct (N.leb_spec (f_id x) (f_id f)) as [Hle|Hgt]; cbn [filter].
    + rewrite IH. destruct (f_id f =? id); destruct (f_id x =? id); reflexivity.
    + destruct (N.eqb_spec (f_id f) id) as [<-|]; [|reflexivity].
      assert (E : forall m, Forall (fun y => f_id x <= f_id y) m -> filter (fun g => f_id g =? f_id f) m = []).
      { induction 1 as [|y m Hy _ IHm]; [reflexivity|]. cbn. replace (f_id y =? f_id f) with false; [assumption|]. symmetry. apply N.eqb_neq. lia. }
      rewrite (E l Hall). replace (f_id x =? f_id f) with false; [reflexivity|]. symmetry. apply N.eqb_neq. lia.
Qed.
Lemma with_id_before id f l : by_priority l ->
  with_id id (insert_before f l) = if f_id f =? id then f :: with_id id l else with_id id l.
Proof.
  unfold with_id, by_priority. induction 1 as [|x l Hs IH Hall]; cbn [insert_before filter].
  - destruct (f_id f =? id); reflexivity.
  - destruct (N.ltb_spec (f_id x) (f_id f)) as [Hle|Hgt]; cbn [filter].
    + rewrite IH. destruct (N.eqb_spec (f_id f) id) as [E|E]; [|reflexivity].
      destruct (N.eqb_spec (f_id x) id); [lia|reflexivity].
    + reflexivity.
Qed.

Lemma spec_step_sorted cap l op : by_priority l -> by_priority (fst (spec_step cap l op)).
Proof.
  intro H. destruct op; cbn [spec_step fst]; try assumption.
  - destruct (length l <? cap)%nat; cbn [fst]; [apply insert_behind_sorted|]; assumption.
  - destruct H; cbn [tl]; [constructor|assumption].
  - destruct (length l <? cap)%nat; cbn [fst]; [apply insert_before_sorted|]; assumption.
Qed.
Lemma spec_run_sorted cap ops : forall l, by_priority l -> by_priority (fst (spec_run cap l ops)).
Proof.
  induction ops as [|op ops IH]; intros l H; cbn [spec_run]; [assumption|].
  pose proof (spec_step_sorted cap l op H) as H1. destruct (spec_step cap l op) as [l1 o]. specialize (IH l1 H1).
  destruct (spec_run cap l1 ops). assumption.
Qed.
