(** Proofs about the reduction of acceptance filters. *)
From Verif Require Import Base BitLemmas FilterModel CoreModel CanIdModel CanSpec CanIdProofs.
Ltac Zify.zify_post_hook ::= Z.div_mod_to_equations.

(** A filter as [Filter::new] makes it. *)
Definition fl_wf (f : filter_t) : Prop := fl_mask f < 2 ^ 29 /\ is_valid f = true.

Lemma land29_bound x : N.land x EXTENDED_ID_MASK < 2 ^ 29.
Proof. apply land_bound_r. reflexivity. Qed.

Lemma filter_new_wf m i : fl_wf (filter_new m i).
Proof.
  split; [apply land29_bound|]. unfold is_valid, filter_new. cbn [fl_idv]. change VALID_BIT with (2 ^ 31) at 2.
  rewrite land_pow2_testbit, N.lor_spec. change VALID_BIT with (2 ^ 31). rewrite N.pow2_bits_true. apply orb_true_r.
Qed.

Lemma filter_id_bound f : filter_id f < 2 ^ 29.
Proof. apply land29_bound. Qed.

Lemma accepts_bits f x : accepts f x = true <->
  forall i, N.testbit (fl_mask f) i = true -> N.testbit x i = N.testbit (filter_id f) i.
Proof. unfold accepts. rewrite N.eqb_eq. apply land_eq_bits. Qed.

Lemma merge_mask_bit a b i : N.testbit (merge_masks a b) i = true ->
  N.testbit (fl_mask a) i = true /\ N.testbit (fl_mask b) i = true /\ N.testbit (filter_id a) i = N.testbit (filter_id b) i.
Proof.
  unfold merge_masks. rewrite !N.land_spec, !N.lxor_spec, !andb_true_iff. intros ((Ha & Hb) & Hx). split; [assumption|]. split; [assumption|].
  destruct (N.lt_ge_cases i 32) as [Hi|Hi].
  - change 0xffffffff with (N.ones 32) in Hx. rewrite N.ones_spec_low in Hx by assumption.
    destruct (N.testbit (filter_id a) i), (N.testbit (filter_id b) i); try reflexivity; discriminate.
  - rewrite !(testbit_high _ 29) by (try apply filter_id_bound; lia). reflexivity.
Qed.

Lemma merge_accepts_bits a b x : accepts (merge a b) x = true <->
  forall i, N.testbit (N.land (merge_masks a b) EXTENDED_ID_MASK) i = true -> N.testbit x i = N.testbit (filter_id a) i.
Proof.
  rewrite accepts_bits. unfold merge. rewrite filter_new_id.
  - unfold filter_new; cbn [fl_mask]. split; intros H i Hi; specialize (H i Hi); rewrite N.land_spec in Hi; apply andb_true_iff in Hi as (Hi & _).
    + rewrite N.land_spec, Hi, andb_true_r in H. exact H.
    + rewrite N.land_spec, Hi, andb_true_r. exact H.
  - apply land_bound, filter_id_bound.
Qed.

Lemma merge_accepts_l a b x : accepts a x = true -> accepts (merge a b) x = true.
Proof.
  rewrite merge_accepts_bits, accepts_bits. intros H i Hi. rewrite N.land_spec, andb_true_iff in Hi. apply H.
  apply (merge_mask_bit a b). tauto.
Qed.
Lemma merge_accepts_r a b x : accepts b x = true -> accepts (merge a b) x = true.
Proof.
  rewrite merge_accepts_bits, accepts_bits. intros H i Hi. rewrite N.land_spec, andb_true_iff in Hi.
  destruct (merge_mask_bit a b i (proj1 Hi)) as (_ & Hb & ->). apply H, Hb.
Qed.

(** access and assignment *)
Lemma fset_length l i f : length (fset l i f) = length l.
Proof. revert i; induction l as [|x l IH]; intros [|i]; cbn; auto. Qed.
Lemma fget_fset l i f j : (i < length l)%nat -> fget (fset l i f) j = if (i =? j)%nat then f else fget l j.
Proof.
  revert i j; induction l as [|x l IH]; intros i j Hi; [cbn in Hi; lia|]. destruct i as [|i]; destruct j as [|j]; try reflexivity.
  cbn [fset fget nth Nat.eqb]. apply IH. cbn in Hi. lia.
Qed.
Lemma fget_app a x b : fget (a ++ x :: b) (length a) = x.
Proof. unfold fget. rewrite app_nth2, Nat.sub_diag by lia. reflexivity. Qed.
Lemma fset_app a x b f : fset (a ++ x :: b) (length a) f = a ++ f :: b.
Proof. induction a; cbn; [reflexivity|f_equal; assumption]. Qed.
Lemma fget_in l i : (i < length l)%nat -> In (fget l i) l.
Proof. intro H. unfold fget. apply nth_In. assumption. Qed.
Lemma in_fget l f : In f l -> exists i, (i < length l)%nat /\ fget l i = f.
Proof. intro H. destruct (In_nth l f invalid H) as (i & Hi & E). eauto. Qed.

Lemma vc_app a b : valid_count (a ++ b) = (valid_count a + valid_count b)%nat.
Proof. unfold valid_count. rewrite filter_app, app_length. reflexivity. Qed.
Lemma vc_fset l i f : (i < length l)%nat ->
  (valid_count (fset l i f) + Nat.b2n (is_valid (fget l i)) = valid_count l + Nat.b2n (is_valid f))%nat.
Proof.
  revert i; induction l as [|x l IH]; intros i Hi; [cbn in Hi; lia|]. destruct i as [|i].
  - cbn [fset fget nth]. unfold valid_count. cbn [filter]. destruct (is_valid x), (is_valid f); cbn; lia.
  - cbn [fset]. change (fget (x :: l) (S i)) with (fget l i). cbn in Hi. specialize (IH i ltac:(lia)).
    unfold valid_count in *. cbn [filter]. destruct (is_valid x); cbn [length]; lia.
Qed.
Lemma vc_le l : (valid_count l <= length l)%nat.
Proof. unfold valid_count. induction l as [|x l IH]; cbn; [lia|]. destruct (is_valid x); cbn; lia. Qed.
Lemma vc_full l : Forall (fun f => is_valid f = true) l -> valid_count l = length l.
Proof. unfold valid_count. induction 1 as [|x l Hx _ IH]; cbn; [reflexivity|]. rewrite Hx. cbn. lia. Qed.

(** the pair chosen *)
Lemma index_pairs_in n i j : In (i, j) (index_pairs n) <-> (i < j < n)%nat.
Proof.
  unfold index_pairs. rewrite in_flat_map. split.
  - intros (k & Hk & H). apply in_map_iff in H as (m & E & Hm). injection E as <- <-. apply in_seq in Hm, Hk. lia.
  - intros H. exists i. split; [apply in_seq; lia|]. apply in_map_iff. exists j. split; [reflexivity|]. apply in_seq. lia.
Qed.

Definition valid_pair (l : list filter_t) (ij : nat * nat) : Prop :=
  is_valid (fget l (fst ij)) = true /\ is_valid (fget l (snd ij)) = true.
Definition pair_rank (l : list filter_t) (ij : nat * nat) : nat := rank (merge (fget l (fst ij)) (fget l (snd ij))).

Definition pick_inv (l : list filter_t) (seen : list (nat * nat)) (st : nat * (nat * nat)) : Prop :=
  (st = (O, (O, O)) /\ forall ij, In ij seen -> ~ valid_pair l ij) \/
  (In (snd st) seen /\ valid_pair l (snd st) /\ fst st = pair_rank l (snd st) /\
   forall ij, In ij seen -> valid_pair l ij -> (pair_rank l ij <= fst st)%nat).

Lemma pick_body_inv l seen st ij : pick_inv l seen st -> pick_inv l (ij :: seen) (pick_body l st ij).
Proof.
  intro H. unfold pick_body. destruct (is_valid (fget l (fst ij)) && is_valid (fget l (snd ij)))%bool eqn:E.
  - apply andb_true_iff in E. fold (pair_rank l ij).
    destruct (Nat.leb_spec (fst st) (pair_rank l ij)) as [Hr|Hr].
    + right. cbn [fst snd]. split; [left; reflexivity|]. split; [exact E|]. split; [reflexivity|].
      intros ij' [<-|Hin] Hv; [lia|]. destruct H as [(-> & Hn)|(_ & _ & _ & Hm)]; [destruct (Hn _ Hin Hv)|]. specialize (Hm _ Hin Hv). lia.
    + destruct H as [(-> & _)|(H1 & H2 & H3 & H4)]; [cbn in Hr; lia|]. right. split; [right; assumption|]. split; [assumption|]. split; [assumption|].
      intros ij' [<-|Hin] Hv; [lia|auto].
  - assert (Hn : ~ valid_pair l ij) by (intros (Ha & Hb); rewrite Ha, Hb in E; discriminate).
    destruct H as [(-> & Hs)|(H1 & H2 & H3 & H4)].
    + left. split; [reflexivity|]. intros ij' [<-|Hin]; auto.
    + right. split; [right; assumption|]. split; [assumption|]. split; [assumption|]. intros ij' [<-|Hin] Hv; [tauto|auto].
Qed.

Lemma pick_fold_inv l ps : forall seen st, pick_inv l seen st -> pick_inv l (rev ps ++ seen) (fold_left (pick_body l) ps st).
Proof.
  induction ps as [|p ps IH]; intros seen st H; [exact H|]. cbn [fold_left rev]. rewrite <- app_assoc. apply IH. apply pick_body_inv, H.
Qed.

Lemma two_valid l : (2 <= valid_count l)%nat -> exists i j, (i < j < length l)%nat /\ valid_pair l (i, j).
Proof.
  assert (Hone : forall l, (1 <= valid_count l)%nat -> exists j, (j < length l)%nat /\ is_valid (fget l j) = true).
  { clear. intro l. induction l as [|x l IH]; unfold valid_count; cbn [filter]; [cbn; lia|]. destruct (is_valid x) eqn:E.
    - intros _. exists O. split; [cbn; lia|exact E].
    - intro H. destruct (IH H) as (j & Hj & Hv). exists (S j). split; [cbn; lia|exact Hv]. }
  induction l as [|x l IH]; unfold valid_count; cbn [filter]; [cbn; lia|]. destruct (is_valid x) eqn:E.
  - cbn [length]. intro H. destruct (Hone l) as (j & Hj & Hv); [unfold valid_count; lia|].
    exists O, (S j). split; [cbn; lia|]. split; [exact E|exact Hv].
  - intro H. destruct (IH H) as (i & j & Hij & Hv). exists (S i), (S j). split; [cbn; lia|exact Hv].
Qed.

Lemma pick_spec l : (2 <= valid_count l)%nat ->
  (fst (pick l) < snd (pick l) < length l)%nat /\ valid_pair l (pick l) /\
  forall i j, (i < j < length l)%nat -> valid_pair l (i, j) -> (pair_rank l (i, j) <= pair_rank l (pick l))%nat.
Proof.
  intro H. destruct (two_valid l H) as (i & j & Hij & Hv).
  assert (Hin : In (i, j) (rev (index_pairs (length l)) ++ [])) by (rewrite app_nil_r; apply in_rev; rewrite rev_involutive; apply index_pairs_in; assumption).
  assert (Hinv : pick_inv l (rev (index_pairs (length l)) ++ []) (fold_left (pick_body l) (index_pairs (length l)) (O, (O, O)))).
  { apply pick_fold_inv. left. split; [reflexivity|]. intros ? []. }
  destruct Hinv as [(_ & Hn)|(H1 & H2 & H3 & H4)]; [destruct (Hn _ Hin Hv)|]. fold (pick l) in H1, H2, H3.
  split; [|split; [assumption|]].
  - rewrite app_nil_r in H1. apply in_rev in H1. destruct (pick l) as [a b]. apply index_pairs_in in H1. assumption.
  - intros a b Hab Hv'. rewrite <- H3. apply H4; [|assumption]. rewrite app_nil_r. apply in_rev. rewrite rev_involutive. apply index_pairs_in. assumption.
Qed.

(** coverage *)
Definition some_accepts (l : list filter_t) (x : N) : Prop := exists f, In f l /\ is_valid f = true /\ accepts f x = true.

Lemma merge_valid a b : is_valid (merge a b) = true.
Proof. apply filter_new_wf. Qed.

Lemma merge_step_spec l : (2 <= valid_count l)%nat ->
  length (merge_step l) = length l /\ (valid_count (merge_step l) + 1 = valid_count l)%nat /\
  forall x, some_accepts l x -> some_accepts (merge_step l) x.
Proof.
  intro H. destruct (pick_spec l H) as (Hij & (Hvi & Hvj) & _). unfold merge_step. destruct (pick l) as [i j]. cbn [fst snd] in *.
  set (m := merge (fget l i) (fget l j)).
  split; [rewrite !fset_length; reflexivity|]. split.
  - pose proof (vc_fset l i m ltac:(lia)) as E1.
    pose proof (vc_fset (fset l i m) j invalid ltac:(rewrite fset_length; lia)) as E2.
    rewrite fget_fset in E2 by lia. replace (i =? j)%nat with false in E2 by (symmetry; apply Nat.eqb_neq; lia).
    rewrite Hvi in E1. rewrite Hvj in E2. unfold m in E1, E2. rewrite merge_valid in E1. cbn [Nat.b2n] in *. change (is_valid invalid) with false in E2. cbn [Nat.b2n] in E2. fold m in E1, E2. lia.
  - intros x (f & Hf & Hv & Ha). apply in_fget in Hf as (k & Hk & <-).
    assert (Hlen : length (fset (fset l i m) j invalid) = length l) by (rewrite !fset_length; reflexivity).
    assert (Hi : fget (fset (fset l i m) j invalid) i = m).
    { rewrite fget_fset by (rewrite fset_length; lia). replace (j =? i)%nat with false by (symmetry; apply Nat.eqb_neq; lia).
      rewrite fget_fset by lia. rewrite Nat.eqb_refl. reflexivity. }
    assert (Hmin : In m (fset (fset l i m) j invalid)) by (pose proof (fget_in (fset (fset l i m) j invalid) i ltac:(lia)) as Hq; rewrite Hi in Hq; exact Hq).
    destruct (Nat.eq_dec k i) as [->|Hki].
    + exists m. split; [exact Hmin|]. split; [apply merge_valid|apply merge_accepts_l; assumption].
    + destruct (Nat.eq_dec k j) as [->|Hkj].
      * exists m. split; [exact Hmin|]. split; [apply merge_valid|apply merge_accepts_r; assumption].
      * exists (fget l k). split; [|split; assumption].
        assert (E : fget (fset (fset l i m) j invalid) k = fget l k).
        { rewrite fget_fset by (rewrite fset_length; lia). replace (j =? k)%nat with false by (symmetry; apply Nat.eqb_neq; lia).
          rewrite fget_fset by lia. replace (i =? k)%nat with false by (symmetry; apply Nat.eqb_neq; lia). reflexivity. }
        rewrite <- E. apply fget_in. lia.
Qed.

Lemma merge_loop_spec k : forall l, (k + 1 <= valid_count l)%nat -> 
  exists m, merge_loop k (valid_count l) l = Ok m /\ length m = length l /\ (valid_count m + k = valid_count l)%nat /\
    forall x, some_accepts l x -> some_accepts m x.
Proof.
  induction k as [|k IH]; intros l H.
  - exists l. cbn. repeat split; auto with arith.
  - cbn [merge_loop]. destruct (merge_step_spec l ltac:(lia)) as (Hl & Hv & Hc).
    replace (valid_count l - 1)%nat with (valid_count (merge_step l)) by lia. rewrite Nat.eqb_refl.
    destruct (IH (merge_step l) ltac:(lia)) as (m & E & Hl' & Hv' & Hc'). exists m. rewrite E. split; [reflexivity|].
    split; [lia|]. split; [lia|]. auto.
Qed.

(** compaction *)
Definition ninv (f : filter_t) : bool := negb (is_valid f).

Lemma sink_step V I f rest : Forall (fun x => is_valid x = true) V -> Forall (fun x => is_valid x = false) I -> is_valid f = true ->
  sink (length V + length I) (V ++ I ++ f :: rest) = V ++ f :: I ++ rest.
Proof.
  intros HV HI Hf. revert rest. induction I as [|x I IH] using rev_ind; intro rest.
  - cbn [length]. rewrite Nat.add_0_r. cbn [app]. destruct V as [|v V] using rev_ind; [reflexivity|].
    rewrite app_length. cbn [length]. rewrite Nat.add_1_r. cbn [sink].
    rewrite <- app_assoc. cbn [app]. rewrite fget_app. apply Forall_app in HV as (_ & Hv). inversion Hv as [|? ? Hvv _]. rewrite Hvv. reflexivity.
  - apply Forall_app in HI as (HI & Hx). inversion Hx as [|? ? Hxx _]. subst.
    rewrite app_length. cbn [length]. rewrite Nat.add_1_r, Nat.add_succ_r. cbn [sink].
    assert (E : V ++ (I ++ [x]) ++ f :: rest = (V ++ I) ++ x :: f :: rest) by (rewrite <- !app_assoc; reflexivity).
    rewrite E. rewrite <- app_length. rewrite fget_app.
    assert (E2 : fget ((V ++ I) ++ x :: f :: rest) (S (length (V ++ I))) = f).
    { replace ((V ++ I) ++ x :: f :: rest) with (((V ++ I) ++ [x]) ++ f :: rest) by (rewrite <- app_assoc; reflexivity).
      replace (S (length (V ++ I))) with (length ((V ++ I) ++ [x])) by (rewrite app_length; cbn; lia). apply fget_app. }
    rewrite E2, Hxx, Hf. cbn [negb andb]. rewrite fset_app.
    assert (E3 : fset ((V ++ I) ++ f :: f :: rest) (S (length (V ++ I))) x = (V ++ I) ++ f :: x :: rest).
    { replace ((V ++ I) ++ f :: f :: rest) with (((V ++ I) ++ [f]) ++ f :: rest) by (rewrite <- app_assoc; reflexivity).
      replace (S (length (V ++ I))) with (length ((V ++ I) ++ [f])) by (rewrite app_length; cbn; lia). rewrite fset_app, <- app_assoc. reflexivity. }
    rewrite E3. rewrite app_length, <- app_assoc. rewrite (IH HI (x :: rest)). rewrite <- app_assoc. reflexivity.
Qed.

Lemma sink_invalid V I f rest : is_valid f = false -> sink (length V + length I) (V ++ I ++ f :: rest) = V ++ I ++ f :: rest.
Proof.
  intro Hf. rewrite <- app_length. rewrite app_assoc. destruct (V ++ I) as [|y l] eqn:E; [reflexivity|].
  change (length (y :: l)) with (S (length l)). cbn [sink].
  change (S (length l)) with (length (y :: l)). rewrite fget_app, Hf, andb_false_r. reflexivity.
Qed.

Lemma forall_filter (P : filter_t -> bool) l : Forall (fun x => P x = true) (filter P l).
Proof. apply Forall_forall. intros x Hx. apply filter_In in Hx. tauto. Qed.

Lemma forall_ninv l : Forall (fun x => is_valid x = false) (filter ninv l).
Proof. apply Forall_forall. intros x Hx. apply filter_In in Hx as (_ & Hx). unfold ninv in Hx. apply negb_true_iff in Hx. assumption. Qed.

Lemma filter_lengths l : (length (filter is_valid l) + length (filter ninv l) = length l)%nat.
Proof. unfold ninv. induction l as [|x l IH]; [reflexivity|]. cbn. destruct (is_valid x); cbn; lia. Qed.

Lemma compact_fold b : forall a,
  fold_left (fun acc i => sink i acc) (seq (length a) (length b)) ((filter is_valid a ++ filter ninv a) ++ b)
  = filter is_valid (a ++ b) ++ filter ninv (a ++ b).
Proof.
  induction b as [|f b IH]; intro a; [cbn; rewrite !app_nil_r; reflexivity|]. cbn [length seq fold_left].
  assert (E : sink (length a) ((filter is_valid a ++ filter ninv a) ++ f :: b) =
              (filter is_valid (a ++ [f]) ++ filter ninv (a ++ [f])) ++ b).
  { rewrite <- (filter_lengths a) at 1. rewrite <- app_assoc. rewrite !filter_app. unfold ninv at 4. cbn [filter]. destruct (is_valid f) eqn:Ef; cbn [negb].
    - rewrite sink_step by (auto using forall_filter, forall_ninv). rewrite !app_nil_r, <- !app_assoc. reflexivity.
    - rewrite sink_invalid by assumption. rewrite !app_nil_r, <- !app_assoc. reflexivity. }
  rewrite E. specialize (IH (a ++ [f])). rewrite app_length in IH. cbn [length] in IH. rewrite Nat.add_1_r in IH. rewrite IH.
  rewrite <- app_assoc. reflexivity.
Qed.

Lemma compact_spec l : compact l = filter is_valid l ++ filter ninv l.
Proof.
  unfold compact. destruct l as [|x l]; [reflexivity|]. cbn [length]. replace (S (length l) - 1)%nat with (length l) by lia.
  pose proof (compact_fold l [x]) as H. cbn [length app] in H. rewrite <- H. f_equal.
  unfold ninv. cbn. destruct (is_valid x); reflexivity.
Qed.

Lemma first_invalid_app V I : Forall (fun x => is_valid x = true) V -> Forall (fun x => is_valid x = false) I ->
  first_invalid (V ++ I) = length V.
Proof.
  intros HV HI. induction HV as [|v V Hv _ IH]; cbn.
  - destruct HI as [|i I Hi _]; cbn; [reflexivity|]. rewrite Hi. reflexivity.
  - rewrite Hv. f_equal. exact IH.
Qed.

Lemma optimize_eq l max m : max <> O -> merge_filters l max = Ok m -> (valid_count m <= max)%nat -> optimize l max = Ok (filter is_valid m).
Proof.
  intros Hmax Hm Hv. unfold optimize. replace (max =? 0)%nat with false by (symmetry; apply Nat.eqb_neq; lia). rewrite Hm.
  apply Nat.leb_le in Hv. rewrite Hv. cbv zeta. rewrite compact_spec.
  rewrite first_invalid_app by (auto using forall_filter, forall_ninv).
  rewrite firstn_app, Nat.sub_diag, firstn_O, firstn_all, app_nil_r.
  rewrite skipn_app, Nat.sub_diag, skipn_O, skipn_all. cbn [app].
  assert (E1 : forallb is_valid (filter is_valid m) = true).
  { apply forallb_forall. intros x Hx. apply filter_In in Hx. tauto. }
  assert (E2 : existsb is_valid (filter ninv m) = false).
  { apply not_true_is_false. intro H. apply existsb_exists in H as (x & Hx & Hvx). apply filter_In in Hx as (_ & Hn). unfold ninv in Hn. rewrite Hvx in Hn. discriminate. }
  rewrite E1, E2. reflexivity.
Qed.

Lemma filter_all l : Forall (fun f => is_valid f = true) l -> filter is_valid l = l.
Proof. induction 1 as [|x l Hx _ IH]; cbn; [reflexivity|]. rewrite Hx, IH. reflexivity. Qed.

Lemma optimize_spec l max : max <> O -> Forall (fun f => is_valid f = true) l ->
  exists out, optimize l max = Ok out /\ length out = Nat.min (length l) max /\ Forall (fun f => is_valid f = true) out /\
    (forall x, some_accepts l x -> some_accepts out x) /\ ((length l <= max)%nat -> out = l).
Proof.
  intros Hmax Hl. pose proof (vc_full l Hl) as Hc. destruct (Nat.le_gt_cases (length l) max) as [Hle|Hgt].
  - exists l. assert (Hm : merge_filters l max = Ok l) by (unfold merge_filters; replace (length l - max)%nat with O by lia; reflexivity).
    rewrite (optimize_eq l max l Hmax Hm) by lia. rewrite filter_all by assumption.
    split; [reflexivity|]. split; [lia|]. auto.
  - destruct (merge_loop_spec (length l - max) l ltac:(lia)) as (m & E & Hlm & Hvm & Hcov).
    rewrite Hc in E, Hvm. exists (filter is_valid m). rewrite (optimize_eq l max m Hmax E) by lia.
    split; [reflexivity|]. split; [change (valid_count m = Nat.min (length l) max); lia|]. split; [apply forall_filter|].
    split; [|lia]. intros x H. destruct (Hcov x H) as (f & Hf & Hv & Ha). exists f. rewrite filter_In. auto.
Qed.
