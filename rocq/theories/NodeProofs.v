(** Proofs about NodeModel.v against NodeSpec.v. *)
From Verif Require Import Base CoreModel NodeModel NodeSpec.

(** * The maps *)
Definition keys {V} (l : list (N * V)) : list N := map fst l.

Lemma im_get_none {V} k (l : list (N * V)) : im_get k l = None <-> ~ In k (keys l).
Proof.
  induction l as [|[x v] l IH]; cbn [im_get keys map fst In]; [tauto|].
  destruct (N.eqb_spec x k) as [->|H].
  - split; [discriminate|]. intros H. exfalso. apply H. left. reflexivity.
  - unfold keys in IH. rewrite IH. split; [intros A [E|E]; [congruence|contradiction]|intros A E; apply A; right; exact E].
Qed.
Lemma im_get_in {V} k (l : list (N * V)) : In k (keys l) <-> im_get k l <> None.
Proof.
  pose proof (im_get_none k l) as H. destruct (in_dec N.eq_dec k (keys l)) as [I|I].
  - split; [intros _ E; apply (proj1 H E I)|intros _; exact I].
  - split; [contradiction|]. intros A. exfalso. apply A, H, I.
Qed.
Lemma keys_set {V} k (v : V) l : keys (im_set k v l) = keys l.
Proof.
  induction l as [|[x w] l IH]; [reflexivity|]. cbn [im_set]. destruct (x =? k); [reflexivity|].
  cbn [keys map fst]. f_equal. exact IH.
Qed.
Lemma im_get_set {V} k (v : V) l k' : im_get k' (im_set k v l) = if k =? k' then option_map (fun _ => v) (im_get k l) else im_get k' l.
Proof.
  induction l as [|[x w] l IH]; cbn [im_set im_get].
  - destruct (k =? k'); reflexivity.
  - destruct (N.eqb_spec x k) as [->|Hxk]; cbn [im_get].
    + destruct (N.eqb_spec k k') as [->|H]; reflexivity.
    + destruct (N.eqb_spec x k') as [->|Hxk'].
      * destruct (N.eqb_spec k k'); [congruence|reflexivity].
      * exact IH.
Qed.
Lemma im_get_app {V} k (l m : list (N * V)) : im_get k (l ++ m) = match im_get k l with Some v => Some v | None => im_get k m end.
Proof.
  induction l as [|[x w] l IH]; [reflexivity|]. cbn [app im_get]. destruct (x =? k); [reflexivity|exact IH].
Qed.
Lemma im_get_snoc {V} k (v : V) l k' : im_get k l = None -> im_get k' (l ++ [(k, v)]) = if k =? k' then Some v else im_get k' l.
Proof.
  intros H. rewrite im_get_app. cbn [im_get]. destruct (N.eqb_spec k k') as [->|Hk].
  - rewrite H. reflexivity.
  - destruct (im_get k' l); reflexivity.
Qed.
Lemma keys_snoc {V} k (v : V) l : keys (l ++ [(k, v)]) = keys l ++ [k].
Proof. unfold keys. rewrite map_app. reflexivity. Qed.
Lemma keys_length {V} (l : list (N * V)) : length (keys l) = length l.
Proof. apply map_length. Qed.
Lemma NoDup_snoc {A} (l : list A) x : NoDup l -> ~ In x l -> NoDup (l ++ [x]).
Proof.
  intros Hd Hx. apply NoDup_rev in Hd. rewrite <- (rev_involutive (l ++ [x])). apply NoDup_rev. rewrite rev_app_distr. cbn [rev app].
  constructor; [rewrite <- in_rev; exact Hx|exact Hd].
Qed.
Lemma keys_remove_in {V} k (l : list (N * V)) x : In x (keys (im_remove k l)) -> In x (keys l).
Proof.
  induction l as [|[y w] l IH]; cbn [im_remove keys map fst In]; [tauto|].
  destruct (y =? k); [intros H; right; exact H|]. cbn [keys map fst In]. intros [E|E]; [left; exact E|right; apply IH; exact E].
Qed.
Lemma keys_remove_nodup {V} k (l : list (N * V)) : NoDup (keys l) -> NoDup (keys (im_remove k l)).
Proof.
  induction l as [|[y w] l IH]; cbn [im_remove]; [tauto|]. cbn [keys map fst]. intros H. inversion H as [|a b Hn Hd]; subst.
  destruct (y =? k); [exact Hd|]. cbn [keys map fst]. constructor; [|apply IH; exact Hd].
  intros E. apply Hn, (keys_remove_in k). exact E.
Qed.
Lemma im_get_remove {V} k (l : list (N * V)) k' : NoDup (keys l) -> im_get k' (im_remove k l) = if k =? k' then None else im_get k' l.
Proof.
  induction l as [|[y w] l IH]; cbn [im_remove im_get].
  - intros _. destruct (k =? k'); reflexivity.
  - cbn [keys map fst]. intros H. inversion H as [|a b Hn Hd]; subst.
    destruct (N.eqb_spec y k) as [->|Hyk].
    + destruct (N.eqb_spec k k') as [->|Hkk]; [apply im_get_none; exact Hn|reflexivity].
    + cbn [im_get]. destruct (N.eqb_spec y k') as [->|Hyk'].
      * destruct (N.eqb_spec k k'); [congruence|reflexivity].
      * apply IH. exact Hd.
Qed.
Lemma im_remove_none {V} k (l : list (N * V)) : im_get k l = None -> im_remove k l = l.
Proof.
  induction l as [|[y w] l IH]; cbn [im_get im_remove]; [reflexivity|]. destruct (y =? k); [discriminate|]. intros H. f_equal. apply IH, H.
Qed.
Lemma im_remove_snoc {V} k (v : V) l : im_get k l = None -> im_remove k (l ++ [(k, v)]) = l.
Proof.
  induction l as [|[y w] l IH]; cbn [im_get app im_remove].
  - intros _. rewrite N.eqb_refl. reflexivity.
  - destruct (y =? k); [discriminate|]. intros H. f_equal. apply IH, H.
Qed.
Lemma im_remove_length {V} k (l : list (N * V)) : (length (im_remove k l) <= length l)%nat.
Proof. induction l as [|[y w] l IH]; cbn [im_remove length]; [lia|]. destruct (y =? k); cbn [length]; lia. Qed.
Lemma im_set_length {V} k (v : V) l : length (im_set k v l) = length l.
Proof. rewrite <- !keys_length, keys_set. reflexivity. Qed.

(** A list without repetitions that contains another such list and is not longer. *)
Lemma full_keys {V} (l : list (N * V)) cap (Q : N -> Prop) :
  NoDup (keys l) -> (length l <= cap)%nat -> (forall x, Q x <-> In x (keys l)) -> (full Q cap <-> length l = cap).
Proof.
  intros Hd Hl HQ. split.
  - intros (m & Hm & Hc & Hin). rewrite <- keys_length. apply Nat.le_antisymm; [rewrite keys_length; lia|]. rewrite <- Hc.
    apply NoDup_incl_length; [exact Hm|]. intros x Hx. apply HQ, Hin, Hx.
  - intros E. exists (keys l). split; [exact Hd|]. split; [rewrite keys_length; exact E|]. intros x Hx. apply HQ, Hx.
Qed.

(** * Transfer IDs *)
Lemma tid_range_pos t : 0 < tid_range t.
Proof. destruct t; cbn [tid_range]; lia. Qed.
Lemma tid_next_count t n : tid_next t (n mod tid_range t) = (1 + n) mod tid_range t.
Proof.
  destruct t; cbn [tid_next tid_range].
  - destruct (N.eqb_spec (n mod 32) 31); [|]; (rewrite <- (N.add_mod_idemp_r 1 n) by lia);
    pose proof (N.mod_lt n 32 ltac:(lia)) as H; [rewrite e; reflexivity|]. rewrite (N.mod_small (1 + n mod 32)) by lia. lia.
  - unfold w64. rewrite N.add_mod_idemp_l by lia. f_equal. lia.
Qed.

(** ** Five-bit fields *)
Lemma bits5_len (v : N) : length (map (fun i => N.testbit v (N.of_nat i)) (seq 0 5)) = 5%nat.
Proof. rewrite map_length, seq_length. reflexivity. Qed.
Lemma bits5_val v : v < 32 -> fold_right (fun b v => N.b2n b + 2 * v) 0 (map (fun i => N.testbit v (N.of_nat i)) (seq 0 5)) = v.
Proof.
  intros H. assert (E : exists k, (k < 32)%nat /\ v = N.of_nat k) by (exists (N.to_nat v); lia). destruct E as (k & Hk & ->).
  do 32 (destruct k as [|k]; [reflexivity|]). lia.
Qed.
Lemma load5_lt bits off : load5 bits off < 32.
Proof.
  unfold load5. generalize (skipn off bits). intros l. do 5 (destruct l as [|? l]; cbn [firstn fold_right]; [repeat match goal with b : bool |- _ => destruct b end; reflexivity|]).
  cbn [firstn fold_right]. repeat match goal with b : bool |- _ => destruct b end; reflexivity.
Qed.
Lemma store5_len bits off v : (5 + off <= length bits)%nat -> length (store5 bits off v) = length bits.
Proof. intros H. unfold store5. rewrite !app_length, bits5_len, firstn_length, skipn_length. lia. Qed.
Lemma load5_store5_eq bits off v : (5 + off <= length bits)%nat -> v < 32 -> load5 (store5 bits off v) off = v.
Proof.
  intros H Hv. unfold load5, store5. rewrite skipn_app, skipn_all2 by (rewrite firstn_length; lia).
  rewrite firstn_length, Nat.min_l by lia. rewrite Nat.sub_diag. rewrite skipn_O, app_nil_l, firstn_app, bits5_len, Nat.sub_diag, firstn_O, app_nil_r.
  rewrite firstn_all2 by (rewrite bits5_len; lia). apply bits5_val, Hv.
Qed.
Lemma firstn_skipn_nth {A} (d : A) l1 l2 off k :
  length l1 = length l2 -> (forall i, (off <= i < off + k)%nat -> nth i l1 d = nth i l2 d) -> firstn k (skipn off l1) = firstn k (skipn off l2).
Proof.
  intros Hl H. apply nth_ext with (d := d) (d' := d); [rewrite !firstn_length, !skipn_length, Hl; reflexivity|].
  intros i Hi. rewrite firstn_length in Hi.
  assert (G : forall l : list A, nth i (firstn k (skipn off l)) d = nth (off + i) l d).
  { intros l. rewrite <- (firstn_skipn k (skipn off l)) in *. assert (E : nth i (firstn k (skipn off l)) d = nth i (skipn off l) d).
    { rewrite <- (firstn_skipn k (skipn off l)) at 2. destruct (Nat.lt_ge_cases i (length (firstn k (skipn off l)))) as [L|L].
      - rewrite app_nth1 by exact L. reflexivity.
      - rewrite firstn_length in L. rewrite nth_overflow by (rewrite firstn_length; lia).
        rewrite firstn_skipn. rewrite nth_overflow; [reflexivity|]. lia. }
    rewrite firstn_skipn. rewrite E. clear. revert off. induction l as [|x l IH]; intros [|off]; cbn [skipn Nat.add nth]; try reflexivity.
    - destruct i; reflexivity.
    - apply IH. }
  rewrite !G. apply H. lia.
Qed.
Lemma nth_store5_other bits off v i : (5 + off <= length bits)%nat -> ~ (off <= i < off + 5)%nat -> nth i (store5 bits off v) false = nth i bits false.
Proof.
  intros H Hi. unfold store5. destruct (Nat.lt_ge_cases i off) as [L|L].
  - rewrite app_nth1 by (rewrite firstn_length; lia). rewrite <- (firstn_skipn off bits) at 2. rewrite app_nth1 by (rewrite firstn_length; lia). reflexivity.
  - rewrite app_assoc, app_nth2 by (rewrite app_length, bits5_len, firstn_length; lia).
    rewrite app_length, bits5_len, firstn_length, Nat.min_l by lia.
    rewrite <- (firstn_skipn (off + 5) bits) at 2. rewrite (app_nth2 (firstn (off + 5) bits)) by (rewrite firstn_length; lia).
    rewrite firstn_length, Nat.min_l by lia. reflexivity.
Qed.
Lemma load5_store5_ne bits off off' v :
  (5 + off <= length bits)%nat -> (off' + 5 <= off \/ off + 5 <= off')%nat -> load5 (store5 bits off v) off' = load5 bits off'.
Proof.
  intros H D. unfold load5. f_equal. apply (firstn_skipn_nth false); [apply store5_len; exact H|].
  intros i Hi. apply nth_store5_other; lia.
Qed.
Lemma load5_zero k off : load5 (repeat false k) off = 0.
Proof.
  unfold load5. assert (G : forall m, fold_right (fun b v => N.b2n b + 2 * v) 0 (repeat false m) = 0).
  { induction m as [|m IH]; cbn [repeat fold_right]; [reflexivity|]. rewrite IH. reflexivity. }
  assert (E : firstn 5 (skipn off (repeat false k)) = repeat false (length (firstn 5 (skipn off (repeat false k))))).
  { apply Forall_eq_repeat. apply Forall_forall. intros x Hx.
    assert (In x (repeat false k)) as I; [|apply repeat_spec in I; auto].
    rewrite <- (firstn_skipn off (repeat false k)). apply in_or_app. right. rewrite <- (firstn_skipn 5 (skipn off _)). apply in_or_app. left. exact Hx. }
  rewrite E. apply G.
Qed.

(** ** Trackers *)

(** The tracker holds what the numbers of requests so far determine. *)
Definition tracker_rep (t : transport) (k : tracker_kind) (tr : tracker) (cnt : N -> N) : Prop :=
  match k, tr with
  | KFixed cap, FixedMap cap' ids =>
      cap' = cap /\ NoDup (keys ids) /\ (length ids <= cap)%nat /\
      forall d, im_get d ids = if cnt d =? 0 then None else Some (cnt d mod tid_range t)
  | KCan, CanBits bits => t = TransportCan /\ length bits = 640%nat /\ forall d, d < 128 -> load5 bits (N.to_nat d * 5) = cnt d mod 32
  | _, _ => False
  end.
Lemma tracker_rep_ext t k tr c1 c2 : (forall d, c1 d = c2 d) -> tracker_rep t k tr c1 -> tracker_rep t k tr c2.
Proof.
  intros E. destruct k, tr; cbn [tracker_rep]; try tauto.
  - intros (-> & A & B & C). repeat split; auto. intros d. rewrite <- E. apply C.
  - intros (-> & A & B). repeat split; auto. intros d Hd. rewrite <- E. apply B, Hd.
Qed.
Lemma tracker_rep_default t k : kind_ok t k -> tracker_rep t k (tracker_default k) (fun _ => 0).
Proof.
  destruct k; cbn [kind_ok tracker_default tracker_rep].
  - intros _. split; [reflexivity|]. split; [apply NoDup_nil|]. split; [cbn; lia|]. intros; reflexivity.
  - intros ->. split; [reflexivity|]. split; [apply repeat_length|]. intros d _. rewrite load5_zero. reflexivity.
Qed.
Lemma tracker_rep_keys t cap ids cnt : tracker_rep t (KFixed cap) (FixedMap cap ids) cnt -> forall d, 0 < cnt d <-> In d (keys ids).
Proof.
  intros (_ & _ & _ & G) d. rewrite im_get_in, G. destruct (N.eqb_spec (cnt d) 0); split; intros; try congruence; lia.
Qed.
Lemma tracker_next_spec t k tr cnt d :
  tracker_rep t k tr cnt -> destination_ok k d ->
  (match k with KFixed cap => cnt d = 0 /\ full (fun x => 0 < cnt x) cap | KCan => False end /\ tracker_next t tr d = Ok (None, tr)) \/
  (~ (match k with KFixed cap => cnt d = 0 /\ full (fun x => 0 < cnt x) cap | KCan => False end) /\
   exists tr', tracker_next t tr d = Ok (Some (cnt d mod tid_range t), tr') /\
               tracker_rep t k tr' (fun x => if d =? x then 1 + cnt x else cnt x)).
Proof.
  intros Hr Hd. destruct k as [cap|], tr as [cap' ids|bits]; try (cbn in Hr; contradiction).
  - assert (Hcap : cap' = cap) by apply Hr. subst cap'. pose proof (tracker_rep_keys _ _ _ _ Hr) as Hk. destruct Hr as (_ & Hn & Hl & G).
    pose proof (full_keys ids cap (fun x => 0 < cnt x) Hn Hl Hk) as Hf. cbn [tracker_next]. rewrite G.
    destruct (N.eqb_spec (cnt d) 0) as [E|E].
    + assert (Hnone : im_get d ids = None) by (rewrite G, E; reflexivity). unfold im_insert. rewrite Hnone.
      destruct (Nat.ltb_spec (length ids) cap) as [L|L].
      * right. split; [intros [_ F]; apply Hf in F; lia|]. rewrite E. exists (FixedMap cap (ids ++ [(d, tid_next t 0)])).
        rewrite N.mod_0_l by (pose proof (tid_range_pos t); lia). split; [reflexivity|].
        cbn [tracker_rep]. split; [reflexivity|]. split; [|split].
        -- rewrite keys_snoc. apply NoDup_snoc; [exact Hn|]. apply im_get_none, Hnone.
        -- rewrite app_length. cbn [length]. lia.
        -- intros x. rewrite im_get_snoc by exact Hnone. destruct (N.eqb_spec d x) as [->|Hx]; [|apply G].
           rewrite E. destruct (N.eqb_spec (1 + 0) 0); [lia|]. rewrite <- tid_next_count, N.mod_0_l by (pose proof (tid_range_pos t); lia). reflexivity.
      * left. split; [|reflexivity]. split; [exact E|]. apply Hf. lia.
    + right. split; [tauto|]. exists (FixedMap cap (im_set d (tid_next t (cnt d mod tid_range t)) ids)). split; [reflexivity|].
      cbn [tracker_rep]. split; [reflexivity|]. rewrite keys_set, im_set_length. split; [exact Hn|]. split; [exact Hl|].
      intros x. rewrite im_get_set. destruct (N.eqb_spec d x) as [->|Hx]; [|apply G].
      rewrite G. destruct (N.eqb_spec (cnt x) 0); [contradiction|]. cbn [option_map].
      destruct (N.eqb_spec (1 + cnt x) 0); [lia|]. rewrite tid_next_count. reflexivity.
  - destruct Hr as (-> & Hl & G). right. split; [tauto|]. cbn [destination_ok] in Hd. cbn [tracker_next tid_range].
    assert (L : (5 + N.to_nat d * 5 <= length bits)%nat) by (rewrite Hl; clear - Hd; lia).
    rewrite (proj2 (Nat.leb_le _ _) L). rewrite G by exact Hd.
    eexists. split; [reflexivity|]. cbn [tracker_rep]. split; [reflexivity|]. split; [rewrite store5_len by exact L; exact Hl|].
    pose proof (tid_next_count TransportCan (cnt d)) as T. cbn [tid_range] in T. rewrite T.
    intros x Hx. destruct (N.eqb_spec d x) as [->|Hdx].
    + rewrite load5_store5_eq; [reflexivity|exact L|]. apply N.mod_lt. lia.
    + rewrite load5_store5_ne; [apply G, Hx|exact L|]. lia.
Qed.

(** * Histories *)
Definition pub_rep (t : transport) (l : list (N * publisher)) (h : list entry) : Prop :=
  forall s, im_get s l = option_map (fun tp => Publisher (pub_count s h mod tid_range t) (fst tp) (snd tp)) (pub_started s h).
Definition req_rep (t : transport) (k : tracker_kind) (l : list (N * requester)) (h : list entry) : Prop :=
  forall s, match im_get s l, req_started s h with
            | None, None => True
            | Some q, Some (tmo, prio) => q_timeout q = tmo /\ q_priority q = prio /\ tracker_rep t k (q_ids q) (fun d => req_count s d h)
            | _, _ => False
            end.
Record inv (t : transport) (k : tracker_kind) (P R : nat) (id0 : option N) (h : list entry) (n : core) : Prop := {
  i_t : c_transport n = t; i_k : c_kind n = k; i_P : c_P n = P; i_R : c_R n = R;
  i_id : c_id n = id_after id0 h;
  i_pd : NoDup (keys (c_publishers n)); i_pl : (length (c_publishers n) <= P)%nat;
  i_pub : pub_rep t (c_publishers n) h;
  i_rd : NoDup (keys (c_requesters n)); i_rl : (length (c_requesters n) <= R)%nat;
  i_req : req_rep t k (c_requesters n) h }.

Lemma inv_new t k P R id0 : kind_ok t k -> inv t k P R id0 [] (core_new t k P R id0).
Proof.
  intros Hk. constructor; cbn [core_new c_transport c_kind c_P c_R c_id c_publishers c_requesters length]; try reflexivity; try apply NoDup_nil; try lia.
  - intros s. reflexivity.
  - intros s. cbn [im_get req_started]. exact I.
Qed.

(** What an operation adds to a history when it does not concern publishers. *)
Definition pub_neutral (e : entry) : Prop :=
  match fst (fst e) with StartPublishing _ _ _ => snd e <> ODone | StopPublishing _ => False | _ => True end /\
  forall s, messages s (snd (fst e)) = 0.
Definition req_neutral (e : entry) : Prop :=
  match fst (fst e) with StartSendingRequests _ _ _ _ _ => forall s, snd e <> OToken s | StopSendingRequests _ => False | _ => True end /\
  forall s d, requests s d (snd (fst e)) = 0.
Definition id_neutral (e : entry) : Prop := match fst (fst e) with SetNodeId _ => False | _ => True end.
Lemma pub_neutral_started e h s : pub_neutral e -> pub_started s (e :: h) = pub_started s h.
Proof.
  destruct e as [[o c] r]. unfold pub_neutral. cbn [fst snd]. intros [A _]. destruct o; try reflexivity; [|contradiction]. destruct r; try reflexivity. congruence.
Qed.
Lemma pub_neutral_count e h s : pub_neutral e -> pub_count s (e :: h) = pub_count s h.
Proof.
  destruct e as [[o c] r]. unfold pub_neutral. cbn [fst snd]. intros [A B]. specialize (B s).
  transitivity (messages s c + pub_count s h); [|rewrite B; reflexivity].
  destruct o; try reflexivity. destruct r; try reflexivity. congruence.
Qed.
Lemma req_neutral_started e h s : req_neutral e -> req_started s (e :: h) = req_started s h.
Proof.
  destruct e as [[o c] r]. unfold req_neutral. cbn [fst snd]. intros [A _]. destruct o; try reflexivity; [|contradiction]. destruct r; try reflexivity.
  exfalso. eapply A. reflexivity.
Qed.
Lemma req_neutral_count e h s d : req_neutral e -> req_count s d (e :: h) = req_count s d h.
Proof.
  destruct e as [[o c] r]. unfold req_neutral. cbn [fst snd]. intros [A B]. specialize (B s d).
  transitivity (requests s d c + req_count s d h); [|rewrite B; reflexivity].
  destruct o; try reflexivity. destruct r; try reflexivity. exfalso. eapply A. reflexivity.
Qed.
Lemma id_neutral_after e h id0 : id_neutral e -> id_after id0 (e :: h) = id_after id0 h.
Proof. destruct e as [[o c] r]. unfold id_neutral. cbn [fst snd]. destruct o; try reflexivity. contradiction. Qed.
Lemma pub_rep_neutral t l e h : pub_neutral e -> pub_rep t l h -> pub_rep t l (e :: h).
Proof. intros N H s. rewrite (pub_neutral_started e h s N), (pub_neutral_count e h s N). apply H. Qed.
Lemma req_rep_neutral t k l e h : req_neutral e -> req_rep t k l h -> req_rep t k l (e :: h).
Proof.
  intros N H s. rewrite (req_neutral_started e h s N). specialize (H s).
  destruct (im_get s l), (req_started s h) as [[? ?]|]; try exact H. destruct H as (A & B & C). split; [exact A|]. split; [exact B|].
  apply (tracker_rep_ext _ _ _ (fun d => req_count s d h)); [|exact C]. intros d. symmetry. apply req_neutral_count, N.
Qed.
(** An operation that changes nothing. *)
Lemma inv_neutral t k P R id0 h n e :
  pub_neutral e -> req_neutral e -> id_neutral e -> inv t k P R id0 h n -> inv t k P R id0 (e :: h) n.
Proof.
  intros A B C []. constructor; auto.
  - rewrite id_neutral_after by exact C. assumption.
  - apply pub_rep_neutral; assumption.
  - apply req_rep_neutral; assumption.
Qed.
Ltac neutral := first [exact I | (unfold pub_neutral, req_neutral, id_neutral; cbn [fst snd]; repeat split; auto; try discriminate; intros; try discriminate; reflexivity)].

(** ** Publishing *)
Lemma publisher_publish_spec t tp cnt e src s b lb :
  publisher_publish t (Publisher (cnt mod tid_range t) (fst tp) (snd tp)) e src s b lb =
  if serialize_ok e b
  then (Publisher ((1 + cnt) mod tid_range t) (fst tp) (snd tp),
        [CPush (Transfer (HMsg (MsgH (t_add (e_now e) (fst tp)) (cnt mod tid_range t) (snd tp) s src)) lb b)], e_push e)
  else (Publisher (cnt mod tid_range t) (fst tp) (snd tp), [], PushError EOutOfMemory).
Proof. unfold publisher_publish. cbn [p_next p_timeout p_priority]. rewrite tid_next_count. reflexivity. Qed.

Lemma messages_push s m lb b : messages s [CPush (Transfer (HMsg m) lb b)] = if mh_subject m =? s then 1 else 0.
Proof. unfold messages. cbn [filter is_message]. destruct (mh_subject m =? s); reflexivity. Qed.
Lemma requests_push s d m lb b : requests s d [CPush (Transfer (HReq m) lb b)] = if (sh_service m =? s) && (sh_dest m =? d) then 1 else 0.
Proof. unfold requests. cbn [filter is_request]. destruct ((sh_service m =? s) && (sh_dest m =? d)); reflexivity. Qed.
Lemma im_set_same {V} k (v : V) l : im_get k l = Some v -> im_set k v l = l.
Proof.
  induction l as [|[x w] l IH]; cbn [im_get im_set]; [reflexivity|]. destruct (N.eqb_spec x k); [congruence|]. intros H. f_equal. apply IH, H.
Qed.
Definition push_out (r : push_result) : out := match r with PushOk => ODone | PushWouldBlock => OWouldBlock | PushError e => OError e end.

Lemma set_publishers_same n : set_publishers n (c_publishers n) = n.
Proof. destruct n. reflexivity. Qed.
Lemma set_requesters_same n : set_requesters n (c_requesters n) = n.
Proof. destruct n. reflexivity. Qed.

Lemma publish_spec t k P R id0 h n lb s b e :
  inv t k P R id0 h n ->
  core_step n (Publish lb s b e) =
  match pub_started s h with
  | None => (n, [], ONotPublishing)
  | Some (tmo, prio) =>
      if serialize_ok e b
      then (set_publishers n (im_set s (Publisher ((1 + pub_count s h) mod tid_range t) tmo prio) (c_publishers n)),
            [CPush (Transfer (HMsg (MsgH (t_add (e_now e) tmo) (pub_count s h mod tid_range t) prio s (id_after id0 h))) lb b)], push_out (e_push e))
      else (n, [], OError EOutOfMemory)
  end.
Proof.
  intros V. cbn [core_step]. unfold publish. pose proof (i_pub _ _ _ _ _ _ _ V s) as H. rewrite H.
  destruct (pub_started s h) as [tp|] eqn:Es; cbn [option_map]; [|reflexivity].
  rewrite (i_t _ _ _ _ _ _ _ V), publisher_publish_spec, (i_id _ _ _ _ _ _ _ V). destruct tp as [tmo prio]. cbn [fst snd].
  destruct (serialize_ok e b); [reflexivity|]. cbn [option_map fst snd] in H. rewrite (im_set_same _ _ _ H), set_publishers_same. reflexivity.
Qed.

Lemma requester_send_spec t k q cnt e source s b d lb :
  tracker_rep t k (q_ids q) cnt -> destination_ok k d ->
  (serialize_ok e b = false /\ requester_send t q e source s b d lb = Ok (q, [], OError EOutOfMemory)) \/
  (serialize_ok e b = true /\ match k with KFixed cap => cnt d = 0 /\ full (fun x => 0 < cnt x) cap | KCan => False end /\
   requester_send t q e source s b d lb = Ok (q, [], OError EOutOfMemory)) \/
  (serialize_ok e b = true /\ ~ (match k with KFixed cap => cnt d = 0 /\ full (fun x => 0 < cnt x) cap | KCan => False end) /\
   exists tr', tracker_rep t k tr' (fun x => if d =? x then 1 + cnt x else cnt x) /\
   requester_send t q e source s b d lb =
   Ok (Requester (q_priority q) (q_timeout q) tr',
       [CPush (Transfer (HReq (SvcH (t_add (e_now e) (q_timeout q)) (cnt d mod tid_range t) (q_priority q) s source d)) lb b)],
       match e_push e with PushOk => OTransferId (cnt d mod tid_range t) | PushWouldBlock => OWouldBlock | PushError err => OError err end)).
Proof.
  intros Hr Hd. unfold requester_send. destruct (serialize_ok e b); [|left; auto]. right.
  destruct (tracker_next_spec t k (q_ids q) cnt d Hr Hd) as [[F E]|[F (tr' & E & Hr')]]; rewrite E.
  - left. split; [reflexivity|]. split; [exact F|]. destruct q. reflexivity.
  - right. split; [reflexivity|]. split; [exact F|]. exists tr'. split; [exact Hr'|]. reflexivity.
Qed.

Lemma req_some t k P R id0 h n s : inv t k P R id0 h n ->
  match req_started s h with
  | None => im_get s (c_requesters n) = None
  | Some (tmo, prio) => exists tr, im_get s (c_requesters n) = Some (Requester prio tmo tr) /\ tracker_rep t k tr (fun d => req_count s d h)
  end.
Proof.
  intros V. pose proof (i_req _ _ _ _ _ _ _ V s) as H. destruct (im_get s (c_requesters n)) as [q|], (req_started s h) as [[tmo prio]|]; try contradiction; [|reflexivity].
  destruct H as (A & B & C). exists (q_ids q). split; [|exact C]. rewrite <- A, <- B. destruct q. reflexivity.
Qed.

Definition no_room (k : tracker_kind) (s d : N) (h : list entry) : Prop := req_count s d h = 0 /\ tracker_full k s h.
Lemma no_room_eq k s d h : no_room k s d h <-> match k with KFixed cap => req_count s d h = 0 /\ full (fun x => 0 < req_count s x h) cap | KCan => False end.
Proof. unfold no_room, tracker_full. destruct k; tauto. Qed.

Lemma send_request_spec t k P R id0 h n lb s b d e :
  inv t k P R id0 h n -> destination_ok k d ->
  match req_started s h, id_after id0 h with
  | Some (tmo, prio), Some source =>
      (serialize_ok e b = false \/ no_room k s d h) /\ core_step n (SendRequest lb s b d e) = (n, [], OError EOutOfMemory) \/
      (serialize_ok e b = true /\ ~ no_room k s d h /\ exists tr',
       tracker_rep t k tr' (fun x => if d =? x then 1 + req_count s x h else req_count s x h) /\
       core_step n (SendRequest lb s b d e) =
       (set_requesters n (im_set s (Requester prio tmo tr') (c_requesters n)),
        [CPush (Transfer (HReq (SvcH (t_add (e_now e) tmo) (req_count s d h mod tid_range t) prio s source d)) lb b)],
        match e_push e with PushOk => OTransferId (req_count s d h mod tid_range t) | PushWouldBlock => OWouldBlock | PushError err => OError err end))
  | _, _ => core_step n (SendRequest lb s b d e) = (n, [], OPanic)
  end.
Proof.
  intros V Hd. pose proof (req_some _ _ _ _ _ _ _ s V) as H. cbn [core_step]. unfold send_request.
  rewrite (i_id _ _ _ _ _ _ _ V), (i_t _ _ _ _ _ _ _ V).
  destruct (req_started s h) as [[tmo prio]|]; [|rewrite H; reflexivity]. destruct H as (tr & H & Hr). rewrite H.
  destruct (id_after id0 h) as [source|]; [|reflexivity].
  destruct (requester_send_spec t k (Requester prio tmo tr) (fun x => req_count s x h) e source s b d lb Hr Hd) as [[A E]|[(A & F & E)|(A & F & tr' & Hr' & E)]];
    rewrite E; cbn [q_priority q_timeout].
  - left. split; [left; exact A|]. rewrite (im_set_same _ _ _ H), set_requesters_same. reflexivity.
  - left. split; [right; apply no_room_eq; exact F|]. rewrite (im_set_same _ _ _ H), set_requesters_same. reflexivity.
  - right. split; [exact A|]. split; [intros G; apply no_room_eq in G; exact (F G)|]. exists tr'. split; [exact Hr'|reflexivity].
Qed.

(** A destination that the CAN tracker cannot hold panics. *)
Lemma send_request_bad t k P R id0 h n lb s b d e n' calls r :
  inv t k P R id0 h n -> core_step n (SendRequest lb s b d e) = (n', calls, r) -> r <> OPanic ->
  destination_ok k d \/ (serialize_ok e b = false /\ n' = n /\ calls = [] /\ r = OError EOutOfMemory).
Proof.
  intros V E Hp. destruct k as [cap|]; [left; exact I|]. cbn [destination_ok]. cbn [core_step] in E. unfold send_request in E.
  pose proof (req_some _ _ _ _ _ _ _ s V) as H. destruct (req_started s h) as [[tmo prio]|]; [|rewrite H in E; congruence].
  destruct H as (tr & H & Hr). rewrite H in E. destruct (c_id n); [|congruence]. unfold requester_send in E.
  destruct (serialize_ok e b).
  - left. cbn [q_ids] in E. destruct tr as [|bits]; [contradiction|]. destruct Hr as (_ & Hl & _). cbn [tracker_next] in E.
    destruct (Nat.leb_spec (5 + N.to_nat d * 5) (length bits)) as [L|L]; [|congruence]. rewrite Hl in L. clear - L. lia.
  - right. rewrite (im_set_same _ _ _ H), set_requesters_same in E. injection E as <- <- <-. auto.
Qed.

Lemma inv_step t k P R id0 h n o n' calls r :
  kind_ok t k -> inv t k P R id0 h n -> core_step n o = (n', calls, r) -> r <> OPanic -> inv t k P R id0 ((o, calls, r) :: h) n'.
Proof.
  intros Hk V E Hp. destruct o.
  - (* StartPublishing *)
    cbn [core_step] in E. unfold start_publishing in E. destruct (im_get subject (c_publishers n)) as [p|] eqn:G.
    { injection E as <- <- <-. apply inv_neutral; [neutral|neutral|neutral|exact V]. }
    unfold im_insert in E. rewrite G in E. destruct (Nat.ltb_spec (length (c_publishers n)) (c_P n)) as [L|L].
    2:{ injection E as <- <- <-. apply inv_neutral; [neutral|neutral|neutral|exact V]. }
    injection E as <- <- <-. destruct V. constructor; cbn [set_publishers c_transport c_kind c_P c_R c_id c_publishers c_requesters]; auto.
    + rewrite keys_snoc. apply NoDup_snoc; [assumption|]. apply im_get_none, G.
    + rewrite app_length. cbn [length]. lia.
    + intros s. rewrite im_get_snoc by exact G. cbn [pub_started pub_count]. destruct (N.eqb_spec subject s) as [->|Hs].
      * cbn [option_map fst snd]. rewrite N.mod_0_l by (pose proof (tid_range_pos t); lia). reflexivity.
      * apply i_pub0.
  - (* StopPublishing *)
    cbn [core_step] in E. unfold stop_publishing in E. injection E as <- <- <-. destruct V.
    constructor; cbn [set_publishers c_transport c_kind c_P c_R c_id c_publishers c_requesters]; auto.
    + apply keys_remove_nodup. assumption.
    + pose proof (im_remove_length subject (c_publishers n)). lia.
    + intros s. rewrite im_get_remove by assumption. cbn [pub_started pub_count messages filter length N.of_nat]. rewrite N.add_0_l.
      destruct (N.eqb_spec subject s) as [->|Hs]; [reflexivity|apply i_pub0].
  - (* Publish *)
    rewrite (publish_spec _ _ _ _ _ _ _ loopback subject payload e V) in E. destruct (pub_started subject h) as [[tmo prio]|] eqn:Es.
    2:{ injection E as <- <- <-. apply inv_neutral; [neutral|neutral|neutral|exact V]. }
    destruct (serialize_ok e payload).
    2:{ injection E as <- <- <-. apply inv_neutral; [neutral|neutral|neutral|exact V]. }
    injection E as <- <- <-. destruct V. constructor; cbn [set_publishers c_transport c_kind c_P c_R c_id c_publishers c_requesters]; auto.
    + rewrite keys_set. assumption.
    + rewrite im_set_length. assumption.
    + intros s. rewrite im_get_set. cbn [pub_started pub_count]. rewrite messages_push. cbn [mh_subject].
      destruct (N.eqb_spec subject s) as [->|Hs].
      * rewrite (i_pub0 s), Es. reflexivity.
      * rewrite N.add_0_l. apply i_pub0.
  - (* StartSendingRequests *)
    cbn [core_step] in E. unfold start_sending_requests in E. destruct (c_id n) eqn:Eid.
    2:{ injection E as <- <- <-. apply inv_neutral; [neutral|neutral|neutral|exact V]. }
    destruct (im_get service (c_requesters n)) as [p|] eqn:G.
    { injection E as <- <- <-. apply inv_neutral; [neutral|neutral|neutral|exact V]. }
    unfold im_insert in E. rewrite G in E. destruct (Nat.ltb_spec (length (c_requesters n)) (c_R n)) as [L|L].
    2:{ injection E as <- <- <-. apply inv_neutral; [neutral|neutral|neutral|exact V]. }
    destruct answer as [|err|].
    2:{ rewrite im_remove_snoc, set_requesters_same in E by exact G. injection E as <- <- <-. apply inv_neutral; [neutral|neutral|neutral|exact V]. }
    2:{ rewrite im_remove_snoc, set_requesters_same in E by exact G. injection E as <- <- <-. apply inv_neutral; [neutral|neutral|neutral|exact V]. }
    injection E as <- <- <-. destruct V. constructor; cbn [set_requesters c_transport c_kind c_P c_R c_id c_publishers c_requesters]; auto.
    + rewrite keys_snoc. apply NoDup_snoc; [assumption|]. apply im_get_none, G.
    + rewrite app_length. cbn [length]. lia.
    + intros s. rewrite im_get_snoc by exact G. cbn [req_started]. destruct (N.eqb_spec service s) as [->|Hs].
      * cbn [requester_new q_timeout q_priority q_ids]. split; [reflexivity|]. split; [reflexivity|].
        rewrite i_k0. apply (tracker_rep_ext _ _ _ (fun _ => 0)); [|apply tracker_rep_default, Hk].
        intros d. cbn [req_count]. rewrite N.eqb_refl. reflexivity.
      * specialize (i_req0 s). destruct (im_get s (c_requesters n)) as [q|], (req_started s h) as [[? ?]|]; try exact i_req0.
        destruct i_req0 as (A & B & C). split; [exact A|]. split; [exact B|].
        apply (tracker_rep_ext _ _ _ (fun d => req_count s d h)); [|exact C]. intros d. cbn [req_count].
        destruct (N.eqb_spec service s); [congruence|reflexivity].
  - (* StopSendingRequests *)
    cbn [core_step] in E. unfold stop_sending_requests in E. injection E as <- <- <-. destruct V.
    constructor; cbn [set_requesters c_transport c_kind c_P c_R c_id c_publishers c_requesters]; auto.
    + apply keys_remove_nodup. assumption.
    + pose proof (im_remove_length service (c_requesters n)). lia.
    + intros s. rewrite im_get_remove by assumption. cbn [req_started].
      destruct (N.eqb_spec service s) as [->|Hs]; [exact I|]. specialize (i_req0 s).
      destruct (im_get s (c_requesters n)) as [q|], (req_started s h) as [[? ?]|]; exact i_req0.
  - (* SendRequest *)
    destruct (send_request_bad _ _ _ _ _ _ _ _ _ _ _ _ _ _ _ V E Hp) as [Hd|(_ & -> & -> & ->)].
    2:{ apply inv_neutral; [neutral|neutral|neutral|exact V]. }
    pose proof (send_request_spec _ _ _ _ _ _ _ loopback service payload destination e V Hd) as S. rewrite E in S.
    destruct (req_started service h) as [[tmo prio]|] eqn:Es; [|congruence].
    destruct (id_after id0 h) as [source|] eqn:Eid; [|congruence].
    destruct S as [[_ S]|(_ & _ & tr' & Hr' & S)]; injection S as -> -> ->.
    { apply inv_neutral; [neutral|neutral|neutral|exact V]. }
    pose proof (req_some _ _ _ _ _ _ _ service V) as G. rewrite Es in G. destruct G as (tr & G & _).
    destruct V. constructor; cbn [set_requesters c_transport c_kind c_P c_R c_id c_publishers c_requesters]; auto.
    + rewrite keys_set. assumption.
    + rewrite im_set_length. assumption.
    + intros s. rewrite im_get_set, G. cbn [option_map].
      set (en := (SendRequest loopback service payload destination e, [CPush (Transfer (HReq (SvcH (t_add (e_now e) tmo) (req_count service destination h mod tid_range t) prio service source destination)) loopback payload)], match e_push e with
        | PushOk => OTransferId (req_count service destination h mod tid_range t) | PushWouldBlock => OWouldBlock | PushError err => OError err end)).
      assert (Hc : forall x, req_count s x (en :: h) = (if (service =? s) && (destination =? x) then 1 else 0) + req_count s x h).
      { intros x. cbn [en req_count]. rewrite requests_push. cbn [sh_service sh_dest]. reflexivity. }
      assert (Hs : req_started s (en :: h) = req_started s h) by reflexivity. rewrite Hs.
      destruct (N.eqb_spec service s) as [->|Hne].
      * rewrite Es. cbn [q_timeout q_priority q_ids]. split; [reflexivity|]. split; [reflexivity|].
        apply (tracker_rep_ext _ _ _ (fun x => if destination =? x then 1 + req_count s x h else req_count s x h)); [|exact Hr'].
        intros x. rewrite Hc. cbn [andb]. destruct (destination =? x); lia.
      * specialize (i_req0 s). destruct (im_get s (c_requesters n)) as [q|], (req_started s h) as [[? ?]|]; try exact i_req0.
        destruct i_req0 as (A & B & C). split; [exact A|]. split; [exact B|].
        apply (tracker_rep_ext _ _ _ (fun d => req_count s d h)); [|exact C]. intros d. rewrite Hc. reflexivity.
  - cbn [core_step] in E. injection E as <- <- <-. apply inv_neutral; [neutral|neutral|neutral|exact V].
  - cbn [core_step] in E. injection E as <- <- <-. apply inv_neutral; [neutral|neutral|neutral|exact V].
  - cbn [core_step] in E. injection E as <- <- <-. apply inv_neutral; [neutral|neutral|neutral|exact V].
  - cbn [core_step] in E. injection E as <- <- <-. apply inv_neutral; [neutral|neutral|neutral|exact V].
  - cbn [core_step] in E. unfold send_response in E. destruct (serialize_ok e payload); [destruct (c_id n)|].
    + injection E as <- <- <-. apply inv_neutral; [neutral|neutral|neutral|exact V].
    + congruence.
    + injection E as <- <- <-. apply inv_neutral; [neutral|neutral|neutral|exact V].
  - cbn [core_step] in E. unfold set_node_id in E. injection E as <- <- <-. destruct V.
    constructor; cbn [set_id c_transport c_kind c_P c_R c_id c_publishers c_requesters]; auto.
Qed.

Lemma hist_inv t k P R id0 h n : kind_ok t k -> core_hist (core_new t k P R id0) h n -> inv t k P R id0 h n.
Proof. intros Hk H. induction H as [|h n o n' calls r H IH E Hp]; [apply inv_new, Hk|]. apply (inv_step _ _ _ _ _ _ n _ _ _ _ Hk IH E Hp). Qed.

(** * Handlers *)
Lemma offered_app {W H} (try : H -> W -> bool * W) l1 l2 w seen1 w1 seen2 b w2 :
  offered try l1 w seen1 false w1 -> offered try l2 w1 seen2 b w2 -> offered try (l1 ++ l2) w (seen1 ++ seen2) b w2.
Proof.
  intros A. remember false as f eqn:Ef in A. revert Ef. induction A; intros Ef B; cbn [app]; [exact B|discriminate|].
  eapply off_no; [eassumption|]. apply IHA; assumption.
Qed.
Lemma offered_app_yes {W H} (try : H -> W -> bool * W) l1 l2 w seen w1 :
  offered try l1 w seen true w1 -> offered try (l1 ++ l2) w seen true w1.
Proof.
  intros A. remember true as f eqn:Ef in A. revert Ef. induction A; intros Ef; cbn [app]; [discriminate|apply off_yes; assumption|].
  eapply off_no; [eassumption|]. auto.
Qed.
Lemma handle_incoming_ask {W} (h : handler W) t w : handle_incoming h t w = ask t h w.
Proof. unfold handle_incoming, ask. destruct (t_loopback t) eqn:E; [reflexivity|]. destruct (t_header t); reflexivity. Qed.
Lemma ask_chain {W} (a b : handler W) t w : ask t (handler_chain a b) w = let (r, w') := ask t a w in if r then (true, w') else ask t b w'.
Proof. unfold ask. destruct (t_loopback t); [reflexivity|]. destruct (t_header t); reflexivity. Qed.
Lemma build_offered {W} (c : chain_tree W) t w : exists seen, offered (ask t) (members c) w seen (fst (ask t (build c) w)) (snd (ask t (build c) w)).
Proof.
  revert w. induction c as [h|a IHa b IHb]; intros w; cbn [build members].
  - exists [h]. destruct (ask t h w) as [[] w'] eqn:E; cbn [fst snd]; [apply off_yes; exact E|]. eapply off_no; [exact E|apply off_none].
  - rewrite ask_chain. destruct (IHa w) as (sa & Ha). destruct (ask t (build a) w) as [[] wa] eqn:E; cbn [fst snd] in *.
    + exists sa. apply offered_app_yes, Ha.
    + destruct (IHb wa) as (sb & Hb). exists (sa ++ sb). eapply offered_app; eassumption.
Qed.
