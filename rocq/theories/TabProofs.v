From Verif Require Import Base BitLemmas CoreModel TabModel TabSpec.
From Coq Require Import Permutation.
Ltac Zify.zify_post_hook ::= Z.div_mod_to_equations.

(** * Histories of calls *)
Section Hist.
Context {S : Type}.

Inductive subs_hist : list (sub_event S) -> subs S -> Prop :=
| SH_new : subs_hist [] subs_empty
| SH_sub h t p s alloc ok t' :
    subs_hist h t -> subs_subscribe p s alloc t = (ok, t') -> subs_hist (ESub p s ok :: h) t'
| SH_unsub h t p : subs_hist h t -> subs_hist (EUnsub p :: h) (subs_unsubscribe p t).

Definition is_some {A} (o : option A) : bool := match o with Some _ => true | None => false end.
Definition or_old {A} (o : option A) (a : A) : A := match o with Some x => x | None => a end.

(** a fixed-capacity linear map with capacity [cap] *)
Inductive lm_hist (cap : nat) : list (tab_event S) -> list (N * S) -> Prop :=
| LH_new : lm_hist cap [] []
| LH_insert h t k s : lm_hist cap h t ->
    lm_hist cap (TInsert k s (is_some (lm_insert cap k s t)) :: h) (or_old (lm_insert cap k s t) t)
| LH_getins h t k s : lm_hist cap h t ->
    lm_hist cap (TGetOrInsert k s (is_some (lm_get_or_insert cap k s t)) :: h)
      (or_old (lm_get_or_insert cap k s t) t)
| LH_remove h t k : lm_hist cap h t -> lm_hist cap (TRemove k :: h) (lm_remove k t).

(** the array with one slot per node ID; calls that panic do not continue a history *)
Inductive arr_hist (c : nat) : list (tab_event S) -> arr S -> Prop :=
| AH_new : arr_hist c [] (arr_new c)
| AH_insert h t k s t' : arr_hist c h t -> arr_insert k s t = Ok t' -> arr_hist c (TInsert k s true :: h) t'
| AH_getins h t k s t' : arr_hist c h t -> arr_get_or_insert k s t = Ok t' ->
    arr_hist c (TGetOrInsert k s true :: h) t'
| AH_remove h t k t' : arr_hist c h t -> arr_remove k t = Ok t' -> arr_hist c (TRemove k :: h) t'.

(** the dynamic map *)
Inductive bt_hist : list (tab_event S) -> list (N * S) -> Prop :=
| BH_new : bt_hist [] []
| BH_insert h t k s : bt_hist h t -> bt_hist (TInsert k s true :: h) (bt_insert k s t)
| BH_getins h t k s : bt_hist h t -> bt_hist (TGetOrInsert k s true :: h) (bt_get_or_insert k s t)
| BH_remove h t k : bt_hist h t -> bt_hist (TRemove k :: h) (bt_remove k t).

(** * Association lists *)

Notation keys := (map (@fst N S)).

Lemma lookup_app k a b : lookup k (a ++ b) = match lookup k a with Some s => Some s | None => lookup k b end :> option S.
Proof. induction a as [|[k' s] a IH]; cbn; [reflexivity|]. destruct (N.eqb k' k); [reflexivity|assumption]. Qed.

Lemma lookup_none k (l : list (N * S)) : lookup k l = None <-> ~ In k (keys l).
Proof.
  induction l as [|[k' s] l IH]; cbn; [tauto|].
  destruct (N.eqb_spec k' k); [split; [discriminate|intro H; exfalso; apply H; left; assumption]|].
  rewrite IH. tauto.
Qed.

Lemma lookup_in k s (l : list (N * S)) : NoDup (keys l) -> In (k, s) l -> lookup k l = Some s.
Proof.
  induction l as [|[k' s'] l IH]; cbn; [contradiction|]. intros Hnd [E|Hin].
  - injection E as -> ->. rewrite N.eqb_refl. reflexivity.
  - inversion Hnd as [|? ? Hni Hnd']; subst. destruct (N.eqb_spec k' k) as [->|]; [|auto].
    exfalso. apply Hni. change k with (fst (k, s)). apply in_map. assumption.
Qed.

Lemma lookup_some_in k s (l : list (N * S)) : lookup k l = Some s -> In (k, s) l.
Proof.
  induction l as [|[k' s'] l IH]; cbn; [discriminate|].
  destruct (N.eqb_spec k' k) as [->|]; [intro E; injection E as ->; left; reflexivity|right; auto].
Qed.

Lemma lookup_perm k (a b : list (N * S)) : NoDup (keys a) -> Permutation a b -> lookup k a = lookup k b.
Proof.
  intros Hnd Hp. assert (Hnb : NoDup (keys b)) by (eapply Permutation_NoDup; [apply Permutation_map, Hp|assumption]).
  destruct (lookup k a) as [s|] eqn:E.
  - symmetry. apply lookup_in; [assumption|]. eapply Permutation_in; [eassumption|]. apply lookup_some_in; assumption.
  - symmetry. apply lookup_none. apply lookup_none in E. intro H. apply E.
    eapply Permutation_in; [apply Permutation_map, Permutation_sym, Hp|assumption].
Qed.

Lemma position_spec k (l : list (N * S)) :
  match position k l with
  | Some i => exists s a b, l = a ++ (k, s) :: b /\ length a = i /\ ~ In k (keys a)
  | None => ~ In k (keys l)
  end.
Proof.
  induction l as [|[k' s'] l IH]; cbn; [tauto|].
  destruct (N.eqb_spec k' k) as [->|Hne].
  - exists s', [], l. repeat split. intros [].
  - destruct (position k l) as [i|]; cbn.
    + destruct IH as (s & a & b & -> & Hl & Hni). exists s, ((k', s') :: a), b. cbn. rewrite Hl.
      repeat split. intros [?|?]; contradiction.
    + intros [?|?]; contradiction.
Qed.

Lemma swap_remove_perm (a b : list (N * S)) x : Permutation (swap_remove (length a) (a ++ x :: b)) (a ++ b).
Proof.
  unfold swap_remove. rewrite app_length. cbn [length].
  destruct (Nat.eqb_spec (length a + 1) (length a + Datatypes.S (length b))) as [E|E].
  - destruct b; [|cbn [length] in E; lia]. rewrite firstn_app, firstn_all, Nat.sub_diag. cbn.
    rewrite !app_nil_r. apply Permutation_refl.
  - rewrite firstn_app, firstn_all, Nat.sub_diag. cbn [firstn]. rewrite app_nil_r.
    apply Permutation_app_head.
    destruct (exists_last (l := b)) as (b' & y & ->); [destruct b; [cbn in E; lia|discriminate]|].
    rewrite app_length in *. cbn [length] in *.
    replace (a ++ x :: b' ++ [y]) with ((a ++ x :: b') ++ [y]) by (rewrite <- app_assoc; reflexivity).
    rewrite (skipn_app (length a + Datatypes.S (length b' + 1) - 1)).
    rewrite skipn_all2 by (rewrite app_length; cbn [length]; lia).
    rewrite app_length. cbn [length].
    replace (length a + Datatypes.S (length b' + 1) - 1 - (length a + Datatypes.S (length b')))%nat with 0%nat by lia.
    rewrite skipn_O, app_nil_l.
    replace ((a ++ x :: b') ++ [y]) with ((a ++ [x]) ++ (b' ++ [y])) by (rewrite <- !app_assoc; reflexivity).
    rewrite (skipn_app (Datatypes.S (length a))).
    rewrite skipn_all2 by (rewrite app_length; cbn [length]; lia).
    rewrite app_length. cbn [length]. replace (Datatypes.S (length a) - (length a + 1))%nat with 0%nat by lia.
    cbn [skipn app].
    replace (length a + Datatypes.S (length b' + 1) - 2 - length a)%nat with (length b') by lia.
    rewrite firstn_app, firstn_all, Nat.sub_diag. cbn [firstn]. rewrite app_nil_r.
    rewrite <- Permutation_cons_append. apply Permutation_refl.
Qed.

Lemma vec_unsub_spec k (l : list (N * S)) : NoDup (keys l) ->
  NoDup (keys (vec_unsub k l)) /\ forall k', lookup k' (vec_unsub k l) = if N.eqb k k' then None else lookup k' l.
Proof.
  intro Hnd. unfold vec_unsub. pose proof (position_spec k l) as H.
  destruct (position k l) as [i|].
  - destruct H as (s & a & b & -> & <- & Hni).
    pose proof (swap_remove_perm a b (k, s)) as Hp.
    rewrite map_app in Hnd. cbn [map fst] in Hnd.
    pose proof (NoDup_remove _ _ _ Hnd) as [Hnd' Hkn].
    rewrite <- map_app in Hnd', Hkn.
    assert (Hndp : NoDup (keys (swap_remove (length a) (a ++ (k, s) :: b)))).
    { eapply Permutation_NoDup; [|exact Hnd']. apply Permutation_sym, Permutation_map, Hp. }
    split; [assumption|]. intro k'. rewrite (lookup_perm k' _ _ Hndp Hp).
    destruct (N.eqb_spec k k') as [->|Hne].
    + apply lookup_none. assumption.
    + rewrite !lookup_app. cbn [lookup]. destruct (N.eqb_spec k k'); [contradiction|]. reflexivity.
  - split; [assumption|]. intro k'. destruct (N.eqb_spec k k') as [->|]; [apply lookup_none; assumption|reflexivity].
Qed.

Lemma lookup_snoc k s (l : list (N * S)) k' : lookup k l = None ->
  lookup k' (l ++ [(k, s)]) = if N.eqb k k' then Some s else lookup k' l.
Proof.
  intro Hn. rewrite lookup_app. cbn [lookup]. destruct (N.eqb_spec k k') as [->|].
  - rewrite Hn. reflexivity.
  - destruct (lookup k' l); reflexivity.
Qed.

Lemma nodup_snoc (l : list (N * S)) k s : NoDup (keys l) -> lookup k l = None -> NoDup (keys (l ++ [(k, s)])).
Proof.
  intros Hnd Hn. rewrite map_app. cbn. apply lookup_none in Hn.
  eapply Permutation_NoDup; [apply Permutation_cons_append|]. constructor; assumption.
Qed.

Lemma vec_sub_spec k s alloc (l : list (N * S)) : NoDup (keys l) ->
  fst (vec_sub k s alloc l) = alloc /\
  NoDup (keys (snd (vec_sub k s alloc l))) /\
  forall k', lookup k' (snd (vec_sub k s alloc l)) =
             if N.eqb k k' then (if alloc then Some s else None) else lookup k' l.
Proof.
  intro Hnd. unfold vec_sub. destruct (vec_unsub_spec k l Hnd) as [Hnd' Hl].
  destruct alloc; cbn [fst snd]; (split; [reflexivity|]).
  - assert (Hn : lookup k (vec_unsub k l) = None) by (rewrite Hl, N.eqb_refl; reflexivity).
    split; [apply nodup_snoc; assumption|]. intro k'. rewrite lookup_snoc by assumption.
    rewrite Hl. destruct (N.eqb k k'); reflexivity.
  - split; assumption.
Qed.

Definition subs_nodup (t : subs S) : Prop := NoDup (keys (sb_msg t)) /\ NoDup (keys (sb_req t)) /\ NoDup (keys (sb_resp t)).

Lemma subs_subscribe_spec p s alloc t : subs_nodup t ->
  fst (subs_subscribe p s alloc t) = alloc /\ subs_nodup (snd (subs_subscribe p s alloc t)) /\
  forall p', subs_find p' (snd (subs_subscribe p s alloc t)) =
             if port_eqb p p' then (if alloc then Some s else None) else subs_find p' t.
Proof.
  intros (H1 & H2 & H3). unfold subs_nodup. destruct p as [k|k|k]; cbn [subs_subscribe];
  [destruct (vec_sub_spec k s alloc _ H1) as (Ha & Hb & Hc)|destruct (vec_sub_spec k s alloc _ H2) as (Ha & Hb & Hc)|
   destruct (vec_sub_spec k s alloc _ H3) as (Ha & Hb & Hc)];
  destruct (vec_sub k s alloc _) as [ok l]; cbn [fst snd sb_msg sb_req sb_resp] in *;
  (split; [assumption|split; [tauto|]]); intros [k'|k'|k']; cbn; try reflexivity; apply Hc.
Qed.

Lemma subs_unsubscribe_spec p t : subs_nodup t ->
  subs_nodup (subs_unsubscribe p t) /\
  forall p', subs_find p' (subs_unsubscribe p t) = if port_eqb p p' then None else subs_find p' t.
Proof.
  intros (H1 & H2 & H3). unfold subs_nodup. destruct p as [k|k|k]; cbn [subs_unsubscribe sb_msg sb_req sb_resp];
  [destruct (vec_unsub_spec k _ H1) as (Hb & Hc)|destruct (vec_unsub_spec k _ H2) as (Hb & Hc)|
   destruct (vec_unsub_spec k _ H3) as (Hb & Hc)];
  (split; [tauto|]); intros [k'|k'|k']; cbn; try reflexivity; apply Hc.
Qed.

Lemma update_keys k f (l : list (N * S)) : keys (update k f l) = keys l.
Proof. induction l as [|[k' s] l IH]; cbn; [reflexivity|]. destruct (N.eqb k' k); cbn; congruence. Qed.

Lemma lookup_update k f (l : list (N * S)) k' :
  lookup k' (update k f l) = if N.eqb k k' then option_map f (lookup k' l) else lookup k' l.
Proof.
  induction l as [|[k0 s] l IH]; cbn; [destruct (N.eqb k k'); reflexivity|].
  destruct (N.eqb_spec k0 k) as [->|]; cbn.
  - destruct (N.eqb_spec k k'); [reflexivity|]. reflexivity.
  - destruct (N.eqb_spec k0 k') as [->|].
    + destruct (N.eqb_spec k k'); [congruence|reflexivity].
    + assumption.
Qed.

Lemma subs_update_spec p f (t : subs S) p' :
  subs_find p' (subs_update p f t) = if port_eqb p p' then option_map f (subs_find p' t) else subs_find p' t.
Proof. destruct p, p'; cbn; try reflexivity; apply lookup_update. Qed.

Lemma subs_update_nodup p f (t : subs S) : subs_nodup t -> subs_nodup (subs_update p f t).
Proof. unfold subs_nodup. destruct p; cbn; rewrite ?update_keys; auto. Qed.

Lemma lookup_map_snd f k (l : list (N * S)) : lookup k (map_snd f l) = option_map f (lookup k l).
Proof. induction l as [|[k' s] l IH]; cbn; [reflexivity|]. destruct (N.eqb k' k); [reflexivity|apply IH]. Qed.

Lemma map_snd_keys f (l : list (N * S)) : keys (map_snd f l) = keys l.
Proof. induction l as [|[k' s] l IH]; cbn; [reflexivity|]. f_equal. apply IH. Qed.

Lemma subs_map_spec f (t : subs S) p : subs_find p (subs_map f t) = option_map f (subs_find p t).
Proof. destruct p; cbn; apply lookup_map_snd. Qed.

Lemma subs_map_nodup f (t : subs S) : subs_nodup t -> subs_nodup (subs_map f t).
Proof. unfold subs_nodup. cbn. rewrite !map_snd_keys. auto. Qed.

Lemma subs_hist_spec h t : subs_hist h t -> subs_nodup t /\ forall p, subs_find p t = sub_latest p h.
Proof.
  induction 1 as [|h t p s alloc ok t' _ [Hnd IH] E|h t p _ [Hnd IH]].
  - split; [repeat split; constructor|]. intros []; reflexivity.
  - destruct (subs_subscribe_spec p s alloc t Hnd) as (Ha & Hb & Hc). rewrite E in Ha, Hb, Hc. cbn [fst snd] in *.
    subst alloc. split; [assumption|]. intro p'. rewrite Hc. cbn [sub_latest].
    destruct (port_eqb p p'); [reflexivity|]. apply IH.
  - destruct (subs_unsubscribe_spec p t Hnd) as (Hb & Hc). split; [assumption|].
    intro p'. rewrite Hc. cbn [sub_latest]. destruct (port_eqb p p'); [reflexivity|]. apply IH.
Qed.

(** * Session tables *)

Lemma has_lookup k (l : list (N * S)) : has k l = is_some (lookup k l).
Proof. induction l as [|[k' s] l IH]; cbn; [reflexivity|]. destruct (N.eqb k' k); cbn; auto. Qed.

Lemma lm_insert_spec cap k s (l : list (N * S)) : NoDup (keys l) ->
  match lm_insert cap k s l with
  | Some l' => NoDup (keys l') /\ (forall k', lookup k' l' = if N.eqb k k' then Some s else lookup k' l)
               /\ ((length l <= cap)%nat -> (length l' <= cap)%nat)
  | None => lookup k l = None /\ (cap <= length l)%nat
  end.
Proof.
  intro Hnd. unfold lm_insert. rewrite has_lookup. destruct (lookup k l) as [s0|] eqn:E; cbn [is_some].
  - rewrite update_keys. split; [assumption|]. split.
    + intro k'. rewrite lookup_update. destruct (N.eqb_spec k k') as [->|]; [rewrite E|]; reflexivity.
    + intro. rewrite <- (map_length fst (update _ _ _)), update_keys, map_length. assumption.
  - destruct (Nat.ltb_spec (length l) cap).
    + split; [apply nodup_snoc; assumption|]. split; [intro; apply lookup_snoc; assumption|].
      intro. rewrite app_length. cbn. lia.
    + split; [reflexivity|assumption].
Qed.

Lemma vec_unsub_length k (l : list (N * S)) : (length (vec_unsub k l) <= length l)%nat.
Proof.
  unfold vec_unsub. pose proof (position_spec k l) as H. destruct (position k l) as [i|]; [|lia].
  destruct H as (s & a & b & -> & <- & _). rewrite (Permutation_length (swap_remove_perm a b (k, s))).
  rewrite !app_length. cbn [length]. lia.
Qed.

Lemma lm_hist_spec cap h t : lm_hist cap h t ->
  NoDup (keys t) /\ (length t <= cap)%nat /\ forall k, lookup k t = tab_latest k h.
Proof.
  induction 1 as [|h t k s _ (Hnd & Hlen & IH)|h t k s _ (Hnd & Hlen & IH)|h t k _ (Hnd & Hlen & IH)].
  - repeat split; [constructor|cbn; lia].
  - pose proof (lm_insert_spec cap k s t Hnd) as H. destruct (lm_insert cap k s t) as [t'|]; cbn [is_some or_old].
    + destruct H as (Hnd' & Hl & Hle). split; [assumption|]. split; [auto|]. intro k'. rewrite Hl. cbn [tab_latest].
      rewrite andb_true_r. destruct (N.eqb k k'); [reflexivity|apply IH].
    + split; [assumption|]. split; [assumption|]. intro k'. cbn [tab_latest]. rewrite andb_false_r. apply IH.
  - unfold lm_get_or_insert. rewrite has_lookup. destruct (lookup k t) as [v|] eqn:E; cbn [is_some].
    + cbn [is_some or_old]. repeat split; try assumption. intro k'. cbn [tab_latest]. rewrite <- (IH k').
      destruct (lookup k' t) eqn:E'; [reflexivity|]. destruct (N.eqb_spec k k') as [->|]; [congruence|reflexivity].
    + pose proof (lm_insert_spec cap k s t Hnd) as H. destruct (lm_insert cap k s t) as [t'|]; cbn [is_some or_old].
      * destruct H as (Hnd' & Hl & Hle). split; [assumption|]. split; [auto|]. intro k'. rewrite Hl. cbn [tab_latest].
        rewrite andb_true_r, <- IH. destruct (N.eqb_spec k k') as [->|]; [rewrite E; reflexivity|].
        destruct (lookup k' t); reflexivity.
      * split; [assumption|]. split; [assumption|]. intro k'. cbn [tab_latest]. rewrite andb_false_r, <- IH.
        destruct (lookup k' t); reflexivity.
  - unfold lm_remove. destruct (vec_unsub_spec k t Hnd) as [Hnd' Hl]. pose proof (vec_unsub_length k t).
    split; [assumption|]. split; [lia|]. intro k'. rewrite Hl. cbn [tab_latest].
    destruct (N.eqb k k'); [reflexivity|apply IH].
Qed.

Lemma holds_keys_length (l : list (N * S)) n : NoDup (keys l) ->
  (holds_keys n (fun k => lookup k l) <-> length l = n).
Proof.
  intro Hnd. assert (Hiff : forall k, In k (keys l) <-> lookup k l <> None).
  { intro k. rewrite lookup_none. destruct (in_dec N.eq_dec k (keys l)); tauto. }
  split.
  - intros (ks & Hn & <- & Hk). rewrite <- (map_length fst l).
    apply Nat.le_antisymm.
    + apply NoDup_incl_length; [assumption|]. intros k Hin. apply Hk, Hiff, Hin.
    + apply NoDup_incl_length; [assumption|]. intros k Hin. apply Hiff, Hk, Hin.
  - intros <-. exists (keys l). rewrite map_length. repeat split; try assumption; apply Hiff.
Qed.

Lemma lm_fails_iff cap h t k s : lm_hist cap h t ->
  (lm_insert cap k s t = None <-> tab_latest k h = None /\ holds_keys cap (fun k => tab_latest k h)).
Proof.
  intro H. pose proof (lm_hist_spec cap h t H) as (Hnd & Hlen & IH).
  assert (Hh : holds_keys cap (fun k => tab_latest k h) <-> length t = cap).
  { rewrite <- (holds_keys_length t cap Hnd). unfold holds_keys.
    split; intros (ks & A & B & C); exists ks; (split; [assumption|split; [assumption|]]); intro k0;
      [rewrite IH|rewrite <- IH]; apply C. }
  rewrite Hh, <- IH. pose proof (lm_insert_spec cap k s t Hnd) as Hi.
  destruct (lm_insert cap k s t) as [t'|] eqn:E.
  - split; [discriminate|]. intros [Hn Hl]. unfold lm_insert in E. rewrite has_lookup, Hn in E. cbn [is_some] in E. revert E.
    destruct (Nat.ltb_spec (length t) cap); [lia|discriminate].
  - split; [|reflexivity]. intros _. split; [tauto|lia].
Qed.

Lemma arr_put_spec c k v (a : arr S) : length a = c ->
  arr_put k v a = if N.ltb k (N.of_nat c) then
    Ok (firstn (N.to_nat k) a ++ v :: skipn (Datatypes.S (N.to_nat k)) a) else Panic.
Proof.
  intros <-. unfold arr_put. destruct (Nat.ltb_spec (N.to_nat k) (length a)), (N.ltb_spec k (N.of_nat (length a))); try reflexivity; lia.
Qed.

Lemma nth_error_put i (v : option S) (a : arr S) j : (i < length a)%nat ->
  nth_error (firstn i a ++ v :: skipn (Datatypes.S i) a) j = if (i =? j)%nat then Some v else nth_error a j.
Proof.
  revert i j; induction a as [|x a IH]; intros i j Hi; cbn [length] in Hi; [lia|].
  destruct i as [|i]; cbn [firstn skipn app].
  - destruct j; reflexivity.
  - destruct j; [reflexivity|]. cbn [nth_error Nat.eqb]. apply IH. lia.
Qed.

Lemma arr_hist_spec c h t : arr_hist c h t -> length t = c /\
  forall k, N.ltb k (N.of_nat c) = true -> arr_get k t = Ok (tab_latest k h).
Proof.
  assert (Hput : forall (t : arr S) k v t', length t = c -> arr_put k v t = Ok t' ->
            length t' = c /\ (forall k', arr_get k' t' = if N.eqb k k' then Ok v else arr_get k' t)).
  { intros t0 k v t' Hl E. rewrite (arr_put_spec c) in E by assumption.
    destruct (N.ltb_spec k (N.of_nat c)) as [Hk|]; [|discriminate].
    assert (t' = firstn (N.to_nat k) t0 ++ v :: skipn (Datatypes.S (N.to_nat k)) t0) as -> by congruence.
    split.
    - rewrite app_length, firstn_length. cbn [length]. rewrite skipn_length. lia.
    - intro k'. unfold arr_get. rewrite nth_error_put by lia.
      destruct (Nat.eqb_spec (N.to_nat k) (N.to_nat k')), (N.eqb_spec k k'); try reflexivity; lia. }
  induction 1 as [|h t k s t' _ (Hl & IH) E|h t k s t' _ (Hl & IH) E|h t k t' _ (Hl & IH) E].
  - split; [apply repeat_length|]. intros k Hk. unfold arr_get, arr_new.
    rewrite nth_error_repeat by lia. reflexivity.
  - destruct (Hput _ _ _ _ Hl E) as [Hl' Hg]. split; [assumption|]. intros k' Hk'. rewrite Hg. cbn [tab_latest].
    rewrite andb_true_r. destruct (N.eqb k k'); [reflexivity|auto].
  - unfold arr_get_or_insert in E. destruct (arr_get k t) as [[v|]|] eqn:Eg; [| |discriminate].
    + injection E as <-. split; [assumption|]. intros k' Hk'. rewrite (IH k' Hk'). cbn [tab_latest].
      destruct (tab_latest k' h) eqn:E'; [reflexivity|]. rewrite andb_true_r.
      destruct (N.eqb_spec k k') as [->|]; [|reflexivity]. rewrite (IH k' Hk') in Eg. congruence.
    + destruct (Hput _ _ _ _ Hl E) as [Hl' Hg]. split; [assumption|]. intros k' Hk'. rewrite Hg. cbn [tab_latest].
      rewrite andb_true_r. destruct (N.eqb_spec k k') as [->|].
      * rewrite (IH k' Hk') in Eg. injection Eg as ->. reflexivity.
      * rewrite (IH k' Hk'). destruct (tab_latest k' h); reflexivity.
  - destruct (Hput _ _ _ _ Hl E) as [Hl' Hg]. split; [assumption|]. intros k' Hk'. rewrite Hg. cbn [tab_latest].
    destruct (N.eqb k k'); [reflexivity|auto].
Qed.

Lemma arr_total c h t k s : arr_hist c h t ->
  (arr_insert k s t <> Panic <-> k < N.of_nat c) /\ (arr_remove k t <> Panic <-> k < N.of_nat c) /\
  (arr_get_or_insert k s t <> Panic <-> k < N.of_nat c) /\ (arr_get k t <> Panic <-> k < N.of_nat c).
Proof.
  intro H. apply arr_hist_spec in H as [Hl Hg].
  assert (Hget : arr_get k t <> Panic <-> k < N.of_nat c).
  { unfold arr_get. destruct (nth_error t (N.to_nat k)) eqn:E.
    - split; [|discriminate]. intros _. assert (N.to_nat k < length t)%nat by (apply nth_error_Some; congruence). lia.
    - split; [congruence|]. apply nth_error_None in E. lia. }
  assert (Hput : forall v, arr_put k v t <> Panic <-> k < N.of_nat c).
  { intro v. rewrite (arr_put_spec c) by assumption. destruct (N.ltb_spec k (N.of_nat c)); split; congruence || lia. }
  repeat split; try apply Hput; try apply Hget.
  - unfold arr_get_or_insert. intro Hn. apply Hget. intro E. rewrite E in Hn. congruence.
  - intro Hk. unfold arr_get_or_insert. pose proof (proj2 Hget Hk). destruct (arr_get k t) as [[]|]; try congruence.
    apply Hput. assumption.
Qed.

Fixpoint sorted (l : list (N * S)) : Prop :=
  match l with
  | [] => True
  | (k, _) :: r => (forall k', In k' (keys r) -> k < k') /\ sorted r
  end.

Lemma bt_insert_keys k s (l : list (N * S)) k' : In k' (keys (bt_insert k s l)) -> k' = k \/ In k' (keys l).
Proof.
  induction l as [|[k0 s0] l IH]; cbn; [intuition|].
  destruct (N.ltb k k0); cbn; [intuition|]. destruct (N.eqb_spec k k0); cbn; [intuition|]. intuition.
Qed.

Lemma bt_remove_keys k (l : list (N * S)) k' : In k' (keys (bt_remove k l)) -> In k' (keys l).
Proof. induction l as [|[k0 s0] l IH]; cbn; [intuition|]. destruct (N.eqb k k0); cbn; intuition. Qed.

Lemma bt_insert_spec k s (l : list (N * S)) : sorted l ->
  sorted (bt_insert k s l) /\ forall k', lookup k' (bt_insert k s l) = if N.eqb k k' then Some s else lookup k' l.
Proof.
  induction l as [|[k0 s0] l IH]; cbn [bt_insert sorted].
  - intros _. split; [split; [intros ? []|exact I]|]. intro k'. cbn. destruct (N.eqb k k'); reflexivity.
  - intros [Hlt Hs]. destruct (N.ltb_spec k k0) as [Hk|Hk].
    + split.
      * cbn. split; [|split; assumption]. intros k' [<-|Hin]; [assumption|]. specialize (Hlt _ Hin). lia.
      * intro k'. cbn. destruct (N.eqb k k'); reflexivity.
    + destruct (N.eqb_spec k k0) as [->|Hne].
      * split; [split; assumption|]. intro k'. cbn. destruct (N.eqb k0 k'); reflexivity.
      * destruct (IH Hs) as [Hs' Hl]. split.
        -- cbn. split; [|assumption]. intros k' Hin. apply bt_insert_keys in Hin as [->|Hin]; [lia|auto].
        -- intro k'. cbn. rewrite Hl. destruct (N.eqb_spec k0 k') as [->|]; [|reflexivity].
           destruct (N.eqb_spec k k'); [congruence|reflexivity].
Qed.

Lemma bt_remove_spec k (l : list (N * S)) : sorted l ->
  sorted (bt_remove k l) /\ forall k', lookup k' (bt_remove k l) = if N.eqb k k' then None else lookup k' l.
Proof.
  induction l as [|[k0 s0] l IH]; cbn [bt_remove sorted].
  - intros _. split; [exact I|]. intro k'. cbn. destruct (N.eqb k k'); reflexivity.
  - intros [Hlt Hs]. destruct (N.eqb_spec k k0) as [->|Hne].
    + split; [assumption|]. intro k'. cbn. destruct (N.eqb_spec k0 k') as [->|]; [|reflexivity].
      apply lookup_none. intro Hin. specialize (Hlt _ Hin). lia.
    + destruct (IH Hs) as [Hs' Hl]. split.
      * cbn. split; [|assumption]. intros k' Hin. apply Hlt. eapply bt_remove_keys. eassumption.
      * intro k'. cbn. rewrite Hl. destruct (N.eqb_spec k0 k') as [->|]; [|reflexivity].
        destruct (N.eqb_spec k k'); [congruence|reflexivity].
Qed.

Lemma bt_hist_spec h t : bt_hist h t -> sorted t /\ forall k, lookup k t = tab_latest k h.
Proof.
  induction 1 as [|h t k s _ (Hs & IH)|h t k s _ (Hs & IH)|h t k _ (Hs & IH)].
  - split; [exact I|reflexivity].
  - destruct (bt_insert_spec k s t Hs) as [Hs' Hl]. split; [assumption|]. intro k'. rewrite Hl. cbn [tab_latest].
    rewrite andb_true_r. destruct (N.eqb k k'); [reflexivity|apply IH].
  - unfold bt_get_or_insert. destruct (lookup k t) as [v|] eqn:E.
    + split; [assumption|]. intro k'. cbn [tab_latest]. rewrite <- IH.
      destruct (lookup k' t) eqn:E'; [reflexivity|]. destruct (N.eqb_spec k k') as [->|]; [congruence|reflexivity].
    + destruct (bt_insert_spec k s t Hs) as [Hs' Hl]. split; [assumption|]. intro k'. rewrite Hl. cbn [tab_latest].
      rewrite andb_true_r, <- IH. destruct (N.eqb_spec k k') as [->|]; [rewrite E; reflexivity|].
      destruct (lookup k' t); reflexivity.
  - destruct (bt_remove_spec k t Hs) as [Hs' Hl]. split; [assumption|]. intro k'. rewrite Hl. cbn [tab_latest].
    destruct (N.eqb k k'); [reflexivity|apply IH].
Qed.

Lemma sub_latest_all_ok h p :
  (forall p s, ~ In (ESub p s false) h) -> sub_latest p h = sub_latest_ok p h :> option S.
Proof.
  induction h as [|e h IH]; intro H; [reflexivity|].
  assert (Ih : sub_latest p h = sub_latest_ok p h) by (apply IH; intros p' s' Hin; apply (H p' s'); right; assumption).
  destruct e as [p' s [|]|p']; cbn.
  - destruct (port_eqb p' p); [reflexivity|assumption].
  - exfalso. apply (H p' s). left. reflexivity.
  - destruct (port_eqb p' p); [reflexivity|assumption].
Qed.

Lemma subs_lists (h : list (sub_event S)) t :
  subs_hist h t ->
  NoDup (subs_subscribers t) /\ NoDup (subs_servers t) /\ NoDup (map fst (sb_resp t)) /\
  (forall k, In k (subs_subscribers t) <-> sub_latest (PMsg k) h <> None) /\
  (forall k, In k (subs_servers t) <-> sub_latest (PReq k) h <> None).
Proof.
  intro H. destruct (subs_hist_spec h t H) as ((H1 & H2 & H3) & Hf).
  assert (Hk : forall k (l : list (N * S)), In k (keys l) <-> lookup k l <> None).
  { intros k l. rewrite lookup_none. destruct (in_dec N.eq_dec k (keys l)); tauto. }
  repeat split; try assumption; intro Hx.
  - rewrite <- Hf. apply Hk. exact Hx.
  - apply Hk. rewrite <- Hf in Hx. exact Hx.
  - rewrite <- Hf. apply Hk. exact Hx.
  - apply Hk. rewrite <- Hf in Hx. exact Hx.
Qed.

End Hist.
