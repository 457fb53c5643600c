(** Proofs about the bxCAN driver behind a queue. *)
From Verif Require Import Base BitLemmas CoreModel CanIdModel CanTxModel CanTxSpec CanTxProofs CanQueueModel CanQueueSpec CanQueueProofs CanFlushProofs BxModel BxSpec BxProofs.

Ltac Zify.zify_post_hook ::= Z.div_mod_to_equations.
Import Permutation.

(** * Flushing with an invariant and a measure *)

Section Flush.
  Context {Q W : Type} (ops : queue_ops Q) (cap : nat) (R : Q -> list frame -> Prop) (now : W -> W * N) (transmit : W -> frame -> W * tx_res).
  Context (Hc : queue_correct ops cap R) (I : list frame -> W -> Prop) (mu : list frame -> W -> nat).
  (** what one round may do *)
  Definition round_ok : Prop := forall f l w w1 t, by_priority (f :: l) -> I (f :: l) w -> now w = (w1, t) ->
    if t_lt (f_ts f) t then I l w1 /\ (mu l w1 < mu (f :: l) w)%nat
    else let (w2, r) := transmit w1 f in
         match r with
         | TxOk None => I l w2 /\ (mu l w2 < mu (f :: l) w)%nat
         | TxOk (Some g) => if t_lt (f_ts g) t then I l w2 /\ (mu l w2 < mu (f :: l) w)%nat else I (insert_before g l) w2 /\ (mu (insert_before g l) w2 < mu (f :: l) w)%nat
         | TxWouldBlock => I (f :: l) w2
         | TxError => False
         end.
  Context (Hr : round_ok).
  Lemma flush_invariant fuel : forall q l w, R q l -> I l w ->
    match flush_queue ops now transmit fuel q w with
    | Panic => False
    | Ok None => (fuel <= mu l w)%nat
    | Ok (Some (q', w', r)) => r <> FlushError /\ exists l', R q' l' /\ I l' w' /\ (r = FlushOk -> l' = []) /\
        (r = FlushWouldBlock -> exists f rest w0 t0 w1, l' = f :: rest /\ I l' w0 /\ now w0 = (w1, t0) /\ transmit w1 f = (w', TxWouldBlock))
    end.
  Proof.
    induction fuel as [|fuel IH]; intros q l w H Hi; cbn [flush_queue]; [lia|]. destruct l as [|f l].
    - destruct (qc_pop_empty _ _ _ Hc q H) as (q1 & Hp & H1). rewrite Hp. split; [discriminate|]. exists []. split; [exact H1|]. split; [exact Hi|]. split; [reflexivity|discriminate].
    - destruct (qc_pop _ _ _ Hc q f l H) as (q1 & Hp & H1). rewrite Hp. pose proof (qc_sorted _ _ _ Hc q _ H) as Hs. pose proof (qc_cap _ _ _ Hc q _ H) as Hcap. cbn [length] in Hcap.
      pose proof (fun w1 t => Hr f l w w1 t Hs Hi) as K. destruct (now w) as [w1 t] eqn:En. specialize (K w1 t eq_refl). unfold frame_expired.
      assert (X : forall q' l' w', R q' l' -> I l' w' -> (mu l' w' < mu (f :: l) w)%nat -> match flush_queue ops now transmit fuel q' w' with
        | Panic => False | Ok None => (S fuel <= mu (f :: l) w)%nat
        | Ok (Some (q', w', r)) => r <> FlushError /\ exists l', R q' l' /\ I l' w' /\ (r = FlushOk -> l' = []) /\
            (r = FlushWouldBlock -> exists f rest w0 t0 w1, l' = f :: rest /\ I l' w0 /\ now w0 = (w1, t0) /\ transmit w1 f = (w', TxWouldBlock)) end).
      { intros q' l' w' Hq' Hi' Hm. pose proof (IH q' l' w' Hq' Hi') as Y. destruct (flush_queue ops now transmit fuel q' w') as [ [ [ [q2 w2] r]|]|]; [exact Y|lia|exact Y]. }
      destruct (t_lt (f_ts f) t).
      + destruct K as (K1 & K2). exact (X q1 l w1 H1 K1 K2).
      + destruct (transmit w1 f) as [w2 r] eqn:Et. destruct r as [ [g|]| |].
        * destruct (t_lt (f_ts g) t); [exact (X q1 l w2 H1 (proj1 K) (proj2 K))|].
          destruct (qc_return _ _ _ Hc q1 l g H1 ltac:(lia)) as (q2 & Hret & H2). rewrite Hret. exact (X q2 _ w2 H2 (proj1 K) (proj2 K)).
        * exact (X q1 l w2 H1 (proj1 K) (proj2 K)).
        * destruct (qc_return _ _ _ Hc q1 l f H1 ltac:(lia)) as (q2 & Hret & H2). rewrite Hret. rewrite (insert_before_front f l Hs) in H2. split; [discriminate|].
          exists (f :: l). split; [exact H2|]. split; [exact K|]. split; [discriminate|]. intros _. exists f, l, w, t, w1. split; [reflexivity|]. split; [exact Hi|]. split; [exact En|exact Et].
        * contradiction.
  Qed.
End Flush.

(** * Subsequences *)

Lemma sub_refl {A} (l : list A) : subsequence l l.
Proof. induction l; constructor; assumption. Qed.
Lemma sub_trans {A} (b c : list A) : subsequence b c -> forall a, subsequence a b -> subsequence a c.
Proof.
  induction 1 as [l|x b c H IH|x b c H IH]; intros a Ha.
  - inversion Ha; subst. constructor.
  - inversion Ha; subst; [constructor|constructor; apply IH; assumption|apply sub_skip, IH; assumption].
  - apply sub_skip, IH, Ha.
Qed.
Lemma sub_app {A} (a b : list A) : subsequence a b -> forall c d, subsequence c d -> subsequence (a ++ c) (b ++ d).
Proof.
  induction 1 as [l|x a b H IH|x a b H IH]; intros c d Hd; cbn [app].
  - induction l as [|y l IHl]; cbn [app]; [exact Hd|]. apply sub_skip, IHl.
  - apply sub_keep, IH, Hd.
  - apply sub_skip, IH, Hd.
Qed.
Lemma sub_map {A B} (g : A -> B) a b : subsequence a b -> subsequence (map g a) (map g b).
Proof. induction 1; cbn [map]; constructor; assumption. Qed.
Lemma sub_filter {A} (p : A -> bool) a b : subsequence a b -> subsequence (filter p a) (filter p b).
Proof. induction 1 as [l|x a b H IH|x a b H IH]; cbn [filter]; [constructor| |]; destruct (p x); try constructor; assumption. Qed.
Lemma sub_of_filter {A} (p : A -> bool) l : subsequence (filter p l) l.
Proof. induction l as [|a l IH]; cbn [filter]; [constructor|]. destruct (p a); constructor; exact IH. Qed.
Lemma sub_in {A} (a b : list A) x : subsequence a b -> In x a -> In x b.
Proof. induction 1 as [l|y a b H IH|y a b H IH]; cbn [In]; [intros []|intuition|intuition]. Qed.
Lemma sub_length {A} (a b : list A) : subsequence a b -> (length a <= length b)%nat.
Proof. induction 1; cbn [length]; lia. Qed.
Lemma sub_shorter {A} (a b : list A) x : subsequence a b -> In x b -> ~ In x a -> (length a < length b)%nat.
Proof.
  induction 1 as [l|y a b H IH|y a b H IH]; intros Hb Ha; cbn [length].
  - destruct l; [destruct Hb|cbn; lia].
  - destruct Hb as [->|Hb]; [destruct Ha; left; reflexivity|]. assert (~ In x a) by (intro; apply Ha; right; assumption). specialize (IH Hb H0). lia.
  - apply sub_length in H. lia.
Qed.

(** * Frames on their way: in the queue, in mailboxes, sent and lost *)

Lemma with_id_app id a b : with_id id (a ++ b) = with_id id a ++ with_id id b.
Proof. apply filter_app. Qed.
Lemma with_id_cons id f l : with_id id (f :: l) = (if f_id f =? id then [f] else []) ++ with_id id l.
Proof. unfold with_id. cbn [filter]. destruct (f_id f =? id); reflexivity. Qed.
Lemma with_id_none id l : ~ In id (map f_id l) -> with_id id l = [].
Proof.
  intro H. unfold with_id. induction l as [|f l IH]; [reflexivity|]. cbn [filter map In] in *. destruct (N.eqb_spec (f_id f) id) as [E|E]; [destruct H; left; exact E|].
  apply IH. intro K. apply H. right. exact K.
Qed.
Lemma nodup_around a (g : frame) b : NoDup (map f_id (a ++ g :: b)) -> with_id (f_id g) a = [] /\ with_id (f_id g) b = [].
Proof.
  rewrite map_app. cbn [map]. intro H. apply NoDup_remove_2 in H. split; apply with_id_none; intro K; apply H, in_app_iff; [left|right]; exact K.
Qed.
Lemma nodup_less a (g : frame) b : NoDup (map f_id (a ++ g :: b)) -> NoDup (map f_id (a ++ b)).
Proof. rewrite !map_app. cbn [map]. apply NoDup_remove_1. Qed.
Lemma nodup_sub {A} (a b : list A) : subsequence a b -> NoDup b -> NoDup a.
Proof.
  induction 1 as [l|x a b H IH|x a b H IH]; intro N; [constructor| |].
  - inversion N as [|? ? N1 N2]; subst. constructor; [intro K; apply N1, (sub_in _ _ _ H K)|apply IH, N2].
  - inversion N as [|? ? N1 N2]; subst. apply IH, N2.
Qed.

Section Way.
  Context (script : nat -> N * list nat) (pushed : list frame).
  Record way (l : list frame) (os : list (option frame)) (out : list frame) (lost : list (N * frame)) : Prop := {
    way_all : Permutation (map plain pushed) (map plain (out ++ map snd lost ++ occupied os ++ l));
    way_lost : Forall (fun p => (exists k, fst p = fst (script k)) /\ t_lt (f_ts (snd p)) (fst p) = true) lost;
    way_order : forall id, subsequence (map plain (with_id id (out ++ occupied os ++ l))) (map plain (with_id id pushed));
    way_distinct : NoDup (map f_id (occupied os));
    way_fits : Forall fits l }.

  Lemma way_release m l os out lost : way l os out lost -> way l (release m os) (out ++ at_slot m os) lost.
  Proof.
    intros [H1 H2 H3 H4 H5]. destruct (release_occupied m os) as (a & b & E1 & E2). split; [| exact H2 | | | exact H5].
    - rewrite H1, E1, E2. apply Permutation_map. rewrite <- !app_assoc. apply Permutation_app_head.
      transitivity (map snd lost ++ at_slot m os ++ a ++ b ++ l).
      + apply Permutation_app_head. apply Permutation_app_swap_app.
      + apply Permutation_app_swap_app.
    - intro id. specialize (H3 id). rewrite E1 in H3. rewrite E2. rewrite !with_id_app in *. rewrite <- !app_assoc in *. rewrite E1 in H4.
      unfold at_slot in *. destruct (nth_error os m) as [ [f|]|]; [|exact H3..]. cbn [app] in *. rewrite with_id_cons in *.
      destruct (nodup_around a f b H4) as (Na & Nb). destruct (N.eqb_spec (f_id f) id) as [<-|]; [|exact H3]. rewrite Na, Nb in *. exact H3.
    - rewrite E2. rewrite E1 in H4. unfold at_slot in H4. destruct (nth_error os m) as [ [f|]|]; [apply (nodup_less a f b), H4|exact H4..].
  Qed.
  Lemma way_clean k l os out lost : fst (script k) < 2 ^ 32 -> (forall f, In f (occupied os) -> fits f) -> way l os out lost ->
    way l (clean_all (fst (script k)) os) out (lost ++ map (fun g => (fst (script k), g)) (filter (expired_now (fst (script k))) (occupied os))).
  Proof.
    set (now := fst (script k)). intros Hn Hf [H1 H2 H3 H4 H5].
    assert (S : subsequence (occupied (clean_all now os)) (occupied os)) by (rewrite clean_all_occupied; apply sub_of_filter).
    split; [| | | | exact H5].
    - rewrite H1. apply Permutation_map, Permutation_app_head. rewrite map_app, snd_pairs, <- !app_assoc. apply Permutation_app_head. rewrite app_assoc. apply Permutation_app_tail, clean_split.
    - rewrite Forall_app. split; [exact H2|]. rewrite Forall_map, Forall_forall. intros g Hg. apply filter_In in Hg. destruct Hg as (Hg & E). cbn [fst snd]. split; [exists k; reflexivity|].
      apply t_gt_lt; [exact Hn|apply (Hf g Hg)|exact E].
    - intro id. refine (sub_trans _ _ (H3 id) _ _). apply sub_map. unfold with_id. apply sub_filter. apply sub_app; [apply sub_refl|]. apply sub_app; [exact S|apply sub_refl].
    - apply (nodup_sub _ _ (sub_map f_id _ _ S) H4).
  Qed.
  Lemma way_drop k f l os out lost : t_lt (f_ts f) (fst (script k)) = true -> way (f :: l) os out lost -> way l os out (lost ++ [(fst (script k), f)]).
  Proof.
    intros E [H1 H2 H3 H4 H5]. split; [| | | exact H4 | exact (Forall_inv_tail H5)].
    - rewrite H1. apply Permutation_map, Permutation_app_head. rewrite map_app, <- app_assoc. apply Permutation_app_head. cbn [map snd app]. symmetry. apply Permutation_middle.
    - rewrite Forall_app. split; [exact H2|]. constructor; [|constructor]. split; [exists k; reflexivity|exact E].
    - intro id. refine (sub_trans _ _ (H3 id) _ _). apply sub_map. unfold with_id. apply sub_filter. apply sub_app; [apply sub_refl|]. apply sub_app; [apply sub_refl|apply sub_skip, sub_refl].
  Qed.
  Lemma way_put m s f l os out lost : nth_error os m = Some s -> outranks_all f os = true -> (forall g, In g (occupied os) -> fits g) -> way (f :: l) os out lost ->
    way (slot_list (option_map plain s) ++ l) (upd os m (Some f)) out lost.
  Proof.
    intros Em Ho Hfit [H1 H2 H3 H4 H5]. destruct (occupied_upd_some os m s f Em) as (a & b & E1 & E2).
    assert (Out : forall g, In g (occupied os) -> f_id f < f_id g).
    { intros g Hg. unfold outranks_all in Ho. rewrite forallb_forall in Ho. apply N.ltb_lt. exact (Ho g Hg). }
    assert (Hplain : map plain (slot_list (option_map plain s)) = map plain (slot_list s)) by (destruct s; reflexivity).
    split; [| exact H2 | | | ].
    - rewrite H1, E1, E2, !map_app, Hplain. apply Permutation_app_head, Permutation_app_head. cbn [map]. rewrite <- !app_assoc. cbn [app]. apply Permutation_app_head.
      transitivity (map plain (slot_list s) ++ plain f :: map plain b ++ map plain l).
      + apply Permutation_app_head. symmetry. apply Permutation_middle.
      + transitivity (plain f :: map plain (slot_list s) ++ map plain b ++ map plain l); [symmetry; apply Permutation_middle|]. apply perm_skip. apply Permutation_app_swap_app.
    - intro id. specialize (H3 id). rewrite E1 in H3. rewrite E2. rewrite !with_id_app in H3. rewrite !with_id_app. rewrite (with_id_cons id f l) in H3. rewrite (with_id_cons id f b). rewrite !map_app in H3. rewrite !map_app. rewrite <- !app_assoc in H3. rewrite <- !app_assoc.
      assert (None_at : forall x, (forall g, In g x -> In g (occupied os)) -> f_id f = id -> with_id id x = []).
      { intros x Hx <-. apply with_id_none. intro K. apply in_map_iff in K. destruct K as (g & Eg & Hg). specialize (Out g (Hx g Hg)). lia. }
      destruct (N.eqb_spec (f_id f) id) as [Ef|Ef].
      + assert (Na : with_id id a = []) by (apply None_at; [intros g Hg; rewrite E1; apply in_app_iff; left; exact Hg|exact Ef]).
        assert (Nb : with_id id b = []) by (apply None_at; [intros g Hg; rewrite E1, !in_app_iff; right; right; exact Hg|exact Ef]).
        assert (Ns : with_id id (slot_list s) = []) by (apply None_at; [intros g Hg; rewrite E1, !in_app_iff; right; left; exact Hg|exact Ef]).
        assert (Ns' : with_id id (slot_list (option_map plain s)) = []).
        { destruct s as [g|]; [|reflexivity]. unfold with_id in *. cbn [option_map slot_list filter plain f_id] in *. destruct (f_id g =? id); [discriminate|reflexivity]. }
        rewrite Na, Nb, Ns in H3. rewrite Na, Nb, Ns'. exact H3.
      + cbn [map app] in *. destruct s as [g|]; cbn [option_map slot_list] in *; [|exact H3].
        assert (Eg : map plain (with_id id [plain g]) = map plain (with_id id [g])) by (unfold with_id; cbn [filter plain f_id]; destruct (f_id g =? id); reflexivity). rewrite Eg.
        rewrite E1 in H4. cbn [app] in H4. destruct (nodup_around a g b H4) as (Na & Nb). unfold with_id at 3 in H3. unfold with_id at 4. cbn [filter] in *.
        destruct (N.eqb_spec (f_id g) id) as [<-|]; [|exact H3]. rewrite Na, Nb in *. exact H3.
    - rewrite E2, map_app. cbn [map]. rewrite E1 in H4. rewrite !map_app in H4.
      assert (N : NoDup (map f_id a ++ map f_id b)).
      { destruct s as [g|]; cbn [slot_list map app] in H4; [apply NoDup_remove_1 in H4; exact H4|exact H4]. }
      apply (Permutation_NoDup (l := f_id f :: map f_id a ++ map f_id b)); [apply Permutation_middle|]. constructor; [|exact N].
      intro K. rewrite <- map_app in K. apply in_map_iff in K. destruct K as (g & Eg & Hg). assert (Hg' : In g (occupied os)).
      { rewrite E1, !in_app_iff. apply in_app_iff in Hg. destruct Hg; [left|right; right]; assumption. }
      specialize (Out g Hg'). lia.
    - rewrite Forall_app. split; [|exact (Forall_inv_tail H5)]. destruct s as [g|]; [|constructor]. constructor; [|constructor].
      assert (Hg : fits g) by (apply Hfit; rewrite E1, !in_app_iff; right; left; left; reflexivity). exact Hg.
  Qed.
  Lemma insert_before_perm g l : Permutation (insert_before g l) (g :: l).
  Proof.
    induction l as [|x l IH]; [reflexivity|]. cbn [insert_before]. destruct (f_id x <? f_id g); [|reflexivity]. rewrite IH. apply perm_swap.
  Qed.
  Lemma way_return g l os out lost : by_priority l -> way (g :: l) os out lost -> way (insert_before g l) os out lost.
  Proof.
    intros Hs [H1 H2 H3 H4 H5]. split; [| exact H2 | | exact H4 | ].
    - rewrite H1. apply Permutation_map, Permutation_app_head, Permutation_app_head, Permutation_app_head. symmetry. apply insert_before_perm.
    - intro id. specialize (H3 id). rewrite !with_id_app in *. rewrite (with_id_before id g l Hs). rewrite with_id_cons in H3. destruct (f_id g =? id); exact H3.
    - apply (Permutation_Forall (Permutation_sym (insert_before_perm g l)) H5).
  Qed.
End Way.

(** * The queue with the driver *)

Lemma insert_behind_perm g l : Permutation (insert_behind g l) (g :: l).
Proof. induction l as [|x l IH]; [reflexivity|]. cbn [insert_behind]. destruct (f_id x <=? f_id g); [|reflexivity]. rewrite IH. apply perm_swap. Qed.
Lemma way_push script pushed f l os out lost : by_priority l -> fits f -> way script pushed l os out lost -> way script (pushed ++ [f]) (insert_behind f l) os out lost.
Proof.
  intros Hs Hf [H1 H2 H3 H4 H5]. split; [| exact H2 | | exact H4 | ].
  - rewrite map_app, H1, <- map_app. apply Permutation_map. rewrite <- !app_assoc. apply Permutation_app_head, Permutation_app_head, Permutation_app_head.
    rewrite insert_behind_perm. symmetry. apply Permutation_cons_append.
  - intro id. specialize (H3 id). rewrite !with_id_app in *. rewrite (with_id_behind id f l Hs). rewrite with_id_cons. rewrite !map_app in *. 
    replace (map plain (if f_id f =? id then with_id id l ++ [f] else with_id id l)) with (map plain (with_id id l) ++ map plain (if f_id f =? id then [f] else [])) by (destruct (f_id f =? id); [rewrite map_app; reflexivity|cbn [map]; apply app_nil_r]).
    cbn [app map]. rewrite !app_assoc, app_nil_r. apply sub_app; [rewrite <- !app_assoc; exact H3|apply sub_refl].
  - apply (Permutation_Forall (Permutation_sym (insert_behind_perm f l))). constructor; assumption.
Qed.

Lemma sends_ok script pushed ms : forall x l os out lost gone, account x os out gone -> way script pushed l os out lost ->
  exists os' out', account (sends ms x) os' out' gone /\ way script pushed l os' out' lost /\ subsequence (occupied os') (occupied os).
Proof.
  induction ms as [|m ms IH]; intros x l os out lost gone Ha Hw; [exists os, out; split; [exact Ha|split; [exact Hw|apply sub_refl] ]|].
  cbn [sends fold_left]. destruct (IH _ l _ _ lost gone (account_send _ _ _ _ m Ha) (way_release script pushed m _ _ _ _ Hw)) as (os' & out' & A & B & C).
  exists os', out'. split; [exact A|]. split; [exact B|]. refine (sub_trans _ _ _ _ C). destruct (release_occupied m os) as (a & b & E1 & E2). rewrite E1, E2.
  apply sub_app; [apply sub_refl|]. apply (sub_app [] (at_slot m os)); [constructor|apply sub_refl].
Qed.

Section System.
  Context (script : nat -> N * list nat) (pushed : list frame).
  Hypothesis Hscript : forall k, fst (script k) < 2 ^ 32.
  Definition inv (l : list frame) (w : res bx_driver * nat) : Prop :=
    exists x k os out lost gone, w = (Ok x, k) /\ account x os out gone /\ way script pushed l os out lost.
  (** some pending frame has the priority of the first in the queue, or a higher one *)
  Definition blocked (l : list frame) (ids : list N) : bool := existsb (fun id => forallb (fun g => id <=? f_id g) l) ids.
  Definition measure (l : list frame) (w : res bx_driver * nat) : nat :=
    match fst w with
    | Ok x => (2 * (length (pending (bx_can x)) + length l) + if blocked l (map b_id (pending (bx_can x))) then 0 else 1)%nat
    | Panic => O
    end.
  Lemma pending_ids x os : rel x os -> map b_id (pending (bx_can x)) = map f_id (occupied os) /\ length (pending (bx_can x)) = length (occupied os).
  Proof. intro H. rewrite (pending_rel x os H), map_map, map_length. split; reflexivity. Qed.

  Lemma now_inv l w : inv l w -> exists x k os out lost gone os' out', w = (Ok x, k) /\ account x os out gone /\ way script pushed l os out lost /\
    clock_now script w = ((Ok (sends (snd (script k)) x), S k), fst (script k)) /\ account (sends (snd (script k)) x) os' out' gone /\ way script pushed l os' out' lost /\ subsequence (occupied os') (occupied os).
  Proof.
    intros (x & k & os & out & lost & gone & -> & Ha & Hw). destruct (sends_ok script pushed (snd (script k)) x l os out lost gone Ha Hw) as (os' & out' & A & B & C).
    exists x, k, os, out, lost, gone, os', out'. split; [reflexivity|]. split; [exact Ha|]. split; [exact Hw|]. split; [reflexivity|]. split; [exact A|]. split; [exact B|exact C].
  Qed.
  Lemma transmit_inv f l x k os out lost gone : account x os out gone -> way script pushed (f :: l) os out lost ->
    exists x' r os' out' lost' gone', clock_transmit script (Ok x, k) f = ((Ok x', S k), r) /\ account x' os' out' gone' /\
      exists os1, subsequence (occupied os1) (occupied os) /\
      match r with
      | TxOk None => way script pushed l os' out' lost' /\ (subsequence (occupied os') (occupied os) \/ outranks_all f os1 = true /\ In f (occupied os') /\ length (occupied os') = S (length (occupied os1)))
      | TxOk (Some g) => way script pushed (g :: l) os' out' lost' /\ outranks_all f os1 = true /\ In f (occupied os') /\ f_id f < f_id g /\ length (occupied os') = length (occupied os1)
      | TxWouldBlock => way script pushed (f :: l) os' out' lost' /\ exists p, In p (occupied os') /\ f_id p <= f_id f
      | TxError => False
      end.
  Proof.
    intros Ha Hw. unfold clock_transmit, clock_now.
    destruct (sends_ok script pushed (snd (script k)) x (f :: l) os out lost gone Ha Hw) as (os2 & out2 & A & B & C).
    set (x2 := sends (snd (script k)) x) in *. set (now := fst (script k)). pose proof (Hscript k) as Hn.
    destruct (bx_transmit_rel now f x2 os2 (acc_rel _ _ _ _ A) (Forall_inv (way_fits _ _ _ _ _ _ B))) as (x' & r & os' & E & R & _ & T & K). fold now. rewrite E.
    pose proof (account_clean x2 x' os2 os' out2 gone now A Hn R T) as A'.
    pose proof (way_clean script pushed k (f :: l) os2 out2 lost Hn (rel_fits _ _ (acc_rel _ _ _ _ A)) B) as W. fold now in W.
    set (lost1 := lost ++ map (fun g => (now, g)) (filter (expired_now now) (occupied os2))) in *.
    assert (S1 : subsequence (occupied (clean_all now os2)) (occupied os)).
    { refine (sub_trans _ _ C _ _). rewrite clean_all_occupied. apply sub_of_filter. }
    assert (F1 : forall g, In g (occupied (clean_all now os2)) -> fits g).
    { intros g Hg. rewrite clean_all_occupied in Hg. apply filter_In in Hg. exact (rel_fits _ _ (acc_rel _ _ _ _ A) g (proj1 Hg)). }
    destruct (t_lt (f_ts f) now) eqn:Et.
    - destruct K as (-> & -> & _). exists x', (TxOk None), (clean_all now os2), out2, (lost1 ++ [(now, f)]). eexists. split; [reflexivity|]. split; [exact A'|].
      exists (clean_all now os2). split; [exact S1|]. split; [apply (way_drop script pushed k f); assumption|]. left. exact S1.
    - destruct (outranks_all f (clean_all now os2)) eqn:Eo.
      + destruct K as (m & s & -> & Em & -> & _ & _). pose proof (way_put script pushed m s f l (clean_all now os2) out2 lost1 Em Eo F1 W) as W'.
        destruct (occupied_upd_some (clean_all now os2) m s f Em) as (a & b & E1 & E2).
        assert (Hin : In f (occupied (upd (clean_all now os2) m (Some f)))) by (rewrite E2; apply in_app_iff; right; left; reflexivity).
        eexists x', _, _, out2, lost1. eexists. split; [reflexivity|]. split; [exact A'|]. exists (clean_all now os2). split; [exact S1|].
        destruct s as [g|]; cbn [option_map slot_list app] in *.
        * split; [exact W'|]. split; [exact Eo|]. split; [exact Hin|]. split; [|rewrite E1, E2, !app_length; reflexivity]. cbn [plain f_id].
          unfold outranks_all in Eo. rewrite forallb_forall in Eo. apply N.ltb_lt, (Eo g). rewrite E1. apply in_app_iff. right. left. reflexivity.
        * split; [exact W'|]. right. split; [exact Eo|]. split; [exact Hin|]. rewrite E1, E2, !app_length. cbn [length]. lia.
      + destruct K as (-> & -> & _). exists x', TxWouldBlock, (clean_all now os2), out2, lost1. eexists. split; [reflexivity|]. split; [exact A'|]. exists (clean_all now os2). split; [exact S1|].
        split; [exact W|]. unfold outranks_all in Eo.
        assert (X : exists p, In p (occupied (clean_all now os2)) /\ (f_id f <? f_id p) = false).
        { clear - Eo. induction (occupied (clean_all now os2)) as [|p ps IH]; [discriminate|]. cbn [forallb] in Eo. destruct (f_id f <? f_id p) eqn:Ep; [|exists p; split; [left; reflexivity|exact Ep] ].
          cbn [andb] in Eo. destruct (IH Eo) as (p' & Hp & E). exists p'. split; [right; exact Hp|exact E]. }
        destruct X as (p & Hp & E'). apply N.ltb_ge in E'. exists p. split; assumption.
  Qed.
  Lemma measure_rel l x k os : rel x os -> measure l (Ok x, k) = (2 * (length (occupied os) + length l) + if blocked l (map f_id (occupied os)) then 0 else 1)%nat.
  Proof. intro H. unfold measure. cbn [fst]. destruct (pending_ids x os H) as (-> & ->). reflexivity. Qed.
  Lemma blocked_in l f os : In f (occupied os) -> Forall (fun g => f_id f <= f_id g) l -> blocked l (map f_id (occupied os)) = true.
  Proof.
    intros Hf Hl. unfold blocked. apply existsb_exists. exists (f_id f). split; [apply in_map, Hf|]. apply forallb_forall. intros g Hg. rewrite Forall_forall in Hl. apply N.leb_le, Hl, Hg.
  Qed.
  Lemma outranked f l os os1 : blocked (f :: l) (map f_id (occupied os)) = true -> subsequence (occupied os1) (occupied os) -> outranks_all f os1 = true ->
    (length (occupied os1) < length (occupied os))%nat.
  Proof.
    intros Hb Hs Ho. unfold blocked in Hb. apply existsb_exists in Hb. destruct Hb as (id & Hid & Hall). apply in_map_iff in Hid. destruct Hid as (p & <- & Hp).
    cbn [forallb] in Hall. apply andb_prop in Hall. destruct Hall as (Hpf & _). apply N.leb_le in Hpf. apply (sub_shorter _ _ p Hs Hp). intro Hp1.
    unfold outranks_all in Ho. rewrite forallb_forall in Ho. specialize (Ho p Hp1). apply N.ltb_lt in Ho. lia.
  Qed.

  Lemma bx_round_ok : round_ok (clock_now script) (clock_transmit script) inv measure.
  Proof.
    intros f l w w1 t Hs Hi En. destruct (now_inv (f :: l) w Hi) as (x & k & os & out & lost & gone & os1 & out1 & -> & Ha & Hw & E & A & W & S1). rewrite E in En. injection En as <- <-.
    pose proof (sub_length _ _ S1) as L1. rewrite (measure_rel (f :: l) x k os (acc_rel _ _ _ _ Ha)). cbn [length].
    assert (Hl : Forall (fun g => f_id f <= f_id g) l) by (inversion Hs; subst; assumption).
    assert (Hl' : by_priority l) by (inversion Hs; subst; assumption).
    destruct (t_lt (f_ts f) (fst (script k))) eqn:Et.
    { split; [exists (sends (snd (script k)) x), (S k), os1, out1, (lost ++ [(fst (script k), f)]), gone; split; [reflexivity|split; [exact A|apply way_drop; assumption] ]|].
      rewrite (measure_rel l _ _ os1 (acc_rel _ _ _ _ A)). destruct (blocked l _), (blocked (f :: l) _); lia. }
    destruct (transmit_inv f l (sends (snd (script k)) x) (S k) os1 out1 lost gone A W) as (x' & r & os' & out' & lost' & gone' & E' & A' & os2 & S2 & K). rewrite E'.
    pose proof (acc_rel _ _ _ _ A') as R'. assert (S3 : subsequence (occupied os2) (occupied os)) by (exact (sub_trans _ _ S1 _ S2)). pose proof (sub_length _ _ S3) as L3.
    destruct r as [ [g|]| |]; [| | |contradiction].
    - destruct K as (Wg & Ho & Hin & Hfg & Hlen).
      assert (Way : forall l2 lost2, way script pushed l2 os' out' lost2 -> inv l2 (Ok x', S (S k))) by (intros l2 lost2 Hw2; exists x', (S (S k)), os', out', lost2, gone'; split; [reflexivity|split; assumption]).
      destruct (t_lt (f_ts g) (fst (script k))) eqn:Eg.
      + split; [apply (Way l (lost' ++ [(fst (script k), g)])), way_drop; assumption|]. rewrite (measure_rel l _ _ os' R'). destruct (blocked l _), (blocked (f :: l) _); lia.
      + split; [apply (Way _ lost'), way_return; assumption|]. rewrite (measure_rel _ _ _ os' R'). rewrite (blocked_in (insert_before g l) f os' Hin).
        2:{ apply (Permutation_Forall (Permutation_sym (insert_before_perm g l))). constructor; [lia|exact Hl]. }
        rewrite (Permutation_length (insert_before_perm g l)). cbn [length]. destruct (blocked (f :: l) (map f_id (occupied os))) eqn:Eb; [|lia]. pose proof (outranked f l os os2 Eb S3 Ho). lia.
    - destruct K as (Wn & Hc). split; [exists x', (S (S k)), os', out', lost', gone'; split; [reflexivity|split; assumption]|]. rewrite (measure_rel l _ _ os' R').
      destruct Hc as [Hc|(Ho & Hin & Hlen)].
      + pose proof (sub_length _ _ Hc). destruct (blocked l _), (blocked (f :: l) _); lia.
      + rewrite (blocked_in l f os' Hin Hl). destruct (blocked (f :: l) (map f_id (occupied os))) eqn:Eb; [|lia]. pose proof (outranked f l os os2 Eb S3 Ho). lia.
    - destruct K as (Wb & _). exists x', (S (S k)), os', out', lost', gone'. split; [reflexivity|split; assumption].
  Qed.

  Lemma bx_flush_inv cap fuel q l w : holds cap q l -> inv l w ->
    match bx_flush script fuel q w with
    | Panic => False
    | Ok None => (fuel <= 2 * (cap + 3) + 1)%nat
    | Ok (Some (q', w', r)) => r <> FlushError /\ exists l', holds cap q' l' /\ inv l' w' /\ (r = FlushOk -> l' = []) /\
        (r = FlushWouldBlock -> l' <> [] /\ exists x k p, w' = (Ok x, k) /\ In p (pending (bx_can x)) /\ Forall (fun g => b_id p <= f_id g) l')
    end.
  Proof.
    intros Hq Hi. pose proof (flush_invariant aq_ops cap (holds cap) (clock_now script) (clock_transmit script) (aq_correct cap) inv measure bx_round_ok fuel q l w Hq Hi) as K.
    unfold bx_flush. destruct (flush_queue aq_ops (clock_now script) (clock_transmit script) fuel q w) as [ [ [ [q' w'] r]|]|]; [| |exact K].
    - destruct K as (K1 & l' & H' & I' & K2 & K3). split; [exact K1|]. exists l'. split; [exact H'|]. split; [exact I'|]. split; [exact K2|]. intro Er.
      destruct (K3 Er) as (f & rest & w0 & t0 & w1 & -> & I0 & E0 & E1). split; [discriminate|].
      destruct (now_inv _ _ I0) as (x & k & os & out & lost & gone & os1 & out1 & -> & Ha & Hw & E & A & W & S1). rewrite E in E0. injection E0 as <- <-.
      destruct (transmit_inv f rest _ (S k) os1 out1 lost gone A W) as (x' & r' & os' & out' & lost' & gone' & E' & A' & os2 & S2 & K). rewrite E' in E1. injection E1 as <- ->.
      destruct K as (_ & p & Hp & Hpf). exists x', (S (S k)), (on_wire p). split; [reflexivity|]. split; [rewrite (pending_rel _ _ (acc_rel _ _ _ _ A')); apply in_map, Hp|].
      destruct H' as (_ & _ & _ & Hs). constructor; [exact Hpf|]. inversion Hs as [|? ? H1 H2]; subst. rewrite Forall_forall in *. intros g Hg. cbn [on_wire b_id]. specialize (H2 g Hg). cbn beta in H2. lia.
    - destruct Hi as (x & k & os & out & lost & gone & -> & Ha & Hw). rewrite (measure_rel _ _ _ os (acc_rel _ _ _ _ Ha)) in K. pose proof (proj2 (holds_length _ _ _ Hq)).
      assert (length (occupied os) <= 3)%nat.
      { pose proof (rel_length _ _ (acc_rel _ _ _ _ Ha)) as E3. destruct (three os E3) as (o1 & o2 & o3 & ->). destruct o1, o2, o3; cbn; lia. }
      destruct (blocked l _); lia.
  Qed.
End System.

Lemma receive_account o x x' r os out gone : receives o -> bx_step o x = Ok (x', r) -> account x os out gone -> account x' os out gone.
Proof.
  intros Ho E A. destruct o as [now f|now|local ps alloc| |m|b|]; try destruct Ho; cbn [bx_step] in E.
  - unfold bx_receive in E. destruct (receive_from_bus now (d_fifo (bx_can x))) as [fifo [f| |] ]; [|destruct (bx_loopback x) as [|f l]|]; injection E as <- _; apply (account_rx x os out gone _ _ A); reflexivity.
  - unfold bx_filters in E. destruct (optimize_filters _ _ _ _) as [ [fs|]|]; [destruct (enable_banks _ _ _)|unfold bx_accept_all in E; destruct (enable_bank _ _ _)|]; try discriminate E; injection E as <- _;
      apply (account_rx x os out gone _ _ A); reflexivity.
  - unfold bx_accept_all in E. destruct (enable_bank _ _ _); [|discriminate E]. injection E as <- _. apply (account_rx x os out gone _ _ A); reflexivity.
  - injection E as <- _. apply (account_rx x os out gone _ _ A); apply dev_arrive_same.
  - injection E as <- _. apply (account_rx x os out gone _ _ A); reflexivity.
Qed.
Theorem system_inv cap banks script pushed q w : (forall k, fst (script k) < 2 ^ 32) -> system cap banks script pushed q w -> exists l, holds cap q l /\ inv script pushed l w.
Proof.
  intros Hsc H. induction H as [|pushed q w f q' H IH Hf Hp|pushed q w f q' H IH Hp|pushed q w fuel q' w' r H IH Hfl|pushed q x k m H IH|pushed q x k o x' out H IH Ho Hx].
  - exists []. split; [apply holds_new|]. exists (bx_new banks), O, [None; None; None], [], [], []. split; [reflexivity|]. split.
    + split; [apply rel_new|reflexivity|reflexivity|constructor].
    + split; [reflexivity|constructor|intro id; constructor|constructor|constructor].
  - destruct IH as (l & Hq & x & k & os & out & lost & gone & -> & Ha & Hw). pose proof (aq_push_spec cap q l f Hq) as K.
    destruct (length l <? cap)%nat; [|rewrite K in Hp; discriminate]. destruct K as (q1 & E & H1). rewrite Hp in E. injection E as <-. exists (insert_behind f l). split; [exact H1|].
    exists x, k, os, out, lost, gone. split; [reflexivity|]. split; [exact Ha|]. apply way_push; [apply Hq|exact Hf|exact Hw].
  - destruct IH as (l & Hq & Hi). pose proof (aq_push_spec cap q l f Hq) as K. destruct (length l <? cap)%nat; [destruct K as (q1 & E & _); rewrite Hp in E; discriminate|].
    rewrite K in Hp. injection Hp as <-. exists l. split; assumption.
  - destruct IH as (l & Hq & Hi). pose proof (bx_flush_inv script pushed Hsc cap fuel q l w Hq Hi) as K. rewrite Hfl in K. destruct K as (_ & l' & H' & I' & _). exists l'. split; assumption.
  - destruct IH as (l & Hq & x0 & k0 & os & out & lost & gone & E & Ha & Hw). injection E as <- <-. exists l. split; [exact Hq|].
    exists (on_device (dev_send m) x), k, (release m os), (out ++ at_slot m os), lost, gone. split; [reflexivity|]. split; [apply account_send, Ha|apply way_release, Hw].
  - destruct IH as (l & Hq & x0 & k0 & os & dout & lost & gone & E & Ha & Hw). injection E as <- <-. exists l. split; [exact Hq|].
    exists x', k, os, dout, lost, gone. split; [reflexivity|]. split; [|exact Hw]. exact (receive_account o x x' out os dout gone Ho Hx Ha).
Qed.
