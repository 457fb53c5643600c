(** Proofs about pushing to queues, flushing them, and redundancy. *)
From Verif Require Import Base BitLemmas CoreModel CanIdModel CanTxModel CanTxSpec CanTxProofs CanQueueModel CanQueueSpec CanQueueProofs.

(** What the proofs need of a queue: [R q l] says that [q] holds the frames [l]. *)
Record queue_correct {Q} (ops : queue_ops Q) (cap : nat) (R : Q -> list frame -> Prop) : Prop := {
  qc_sorted : forall q l, R q l -> by_priority l;
  qc_cap : forall q l, R q l -> (length l <= cap)%nat;
  qc_pop_empty : forall q, R q [] -> exists q', q_pop ops q = Ok (q', None) /\ R q' [];
  qc_pop : forall q f l, R q (f :: l) -> exists q', q_pop ops q = Ok (q', Some f) /\ R q' l;
  qc_return : forall q l f, R q l -> (length l < cap)%nat -> exists q', q_return ops q f = Ok (q', true) /\ R q' (insert_before f l);
  qc_push : forall q l f, R q l -> (length l < cap)%nat -> exists q', q_push ops q f = Ok (q', true) /\ R q' (insert_behind f l) }.

Lemma aq_correct cap : queue_correct aq_ops cap (holds cap).
Proof.
  split.
  - intros q l (_ & _ & _ & H). assumption.
  - intros q l H. apply (holds_length _ _ _ H).
  - intros q H. exists q. split; [exact (aq_pop_spec cap q [] H)|assumption].
  - intros q f l H. exact (aq_pop_spec cap q (f :: l) H).
  - intros q l f H Hl. pose proof (aq_return_spec cap q l f H) as Hp. apply Nat.ltb_lt in Hl. rewrite Hl in Hp. exact Hp.
  - intros q l f H Hl. pose proof (aq_push_spec cap q l f H) as Hp. apply Nat.ltb_lt in Hl. rewrite Hl in Hp. exact Hp.
Qed.

Definition sq_holds (q : option frame) (l : list frame) : Prop := l = match q with Some f => [f] | None => [] end.
Lemma sq_correct : queue_correct sq_ops 1 sq_holds.
Proof.
  unfold sq_holds. split.
  - intros [f|] l ->; repeat constructor.
  - intros [f|] l ->; cbn; lia.
  - intros [f|] H; [discriminate|]. exists None. auto.
  - intros [g|] f l H; [|discriminate]. injection H as -> ->. exists None. auto.
  - intros [g|] l f -> Hl; cbn in Hl; [lia|]. exists (Some f). auto.
  - intros [g|] l f -> Hl; cbn in Hl; [lia|]. exists (Some f). auto.
Qed.

(** ** pushing a list of frames *)
Lemma send_all_queue {Q} (ops : queue_ops Q) cap R : queue_correct ops cap R -> forall fs q l, R q l -> (length l + length fs <= cap)%nat ->
  exists q', send_all (lift_transmit ops) (Ok q) fs = (Ok q', PushOk) /\ R q' (fold_left (fun l f => insert_behind f l) fs l).
Proof.
  intros Hc fs. induction fs as [|f fs IH]; intros q l H Hl; cbn [send_all fold_left].
  - eauto.
  - cbn [length] in Hl. destruct (qc_push _ _ _ Hc q l f H ltac:(lia)) as (q1 & Hp & H1).
    cbn [lift_transmit]. unfold qd_transmit. rewrite Hp. apply IH; [assumption|]. rewrite insert_behind_length. lia.
Qed.

(** ** flushing *)
Section Flush.
Context {Q W : Type} (ops : queue_ops Q) (cap : nat) (R : Q -> list frame -> Prop).
Context (now : W -> W * N) (transmit : W -> frame -> W * tx_res).
Hypothesis Hc : queue_correct ops cap R.

Definition frun := flush_queue ops (rec_now now) (rec_tx transmit).

(** accounting of all frames *)
Lemma flush_accounts fuel : forall q l w log q' w' log' r, R q l ->
  frun fuel q (w, log) = Ok (Some (q', (w', log'), r)) ->
  exists calls l' dropped, log' = log ++ calls /\ R q' l' /\
    Permutation (l ++ flat_map given_back calls) (flat_map taken calls ++ dropped ++ flat_map failed calls ++ l') /\
    Forall (fun f => exists t, In t (flat_map clock_read calls) /\ frame_expired f t = true) dropped /\
    (r <> FlushError -> flat_map failed calls = []) /\ (length (flat_map failed calls) <= 1)%nat /\ (r = FlushOk -> l' = []).
Proof.
  unfold frun. induction fuel as [|fuel IH]; intros q l w log q' w' log' r H Hrun; [discriminate|].
  cbn [flush_queue] in Hrun. destruct l as [|f l].
  - destruct (qc_pop_empty _ _ _ Hc q H) as (q1 & Hp & H1). rewrite Hp in Hrun. injection Hrun as <- <- <- <-.
    exists [], [], []. rewrite app_nil_r. split; [reflexivity|]. split; [assumption|]. split; [constructor|]. split; [constructor|]. cbn. split; [auto|]. split; [lia|auto].
  - destruct (qc_pop _ _ _ Hc q f l H) as (q1 & Hp & H1). rewrite Hp in Hrun. cbn [rec_now] in Hrun.
    destruct (now w) as [w1 t]. destruct (frame_expired f t) eqn:Ex.
    + destruct (IH q1 l w1 _ q' w' log' r H1 Hrun) as (calls & l' & dropped & -> & Hl' & Hperm & Hdrop & Hfail & Hf1 & Hok).
      exists (CNow t :: calls), l', (f :: dropped). split; [rewrite <- app_assoc; reflexivity|]. split; [assumption|].
      cbn [flat_map given_back taken failed clock_read app]. split; [|split; [|auto]].
      * rewrite Hperm. apply Permutation_middle.
      * constructor; [exists t; split; [left; reflexivity|assumption]|]. eapply Forall_impl; [|exact Hdrop]. cbn. intros g (t' & Ht' & Hg). exists t'. split; [right; assumption|assumption].
    + cbn [rec_tx] in Hrun. destruct (transmit w1 f) as [w2 [[g|]| |]].
      * (* displaced *) destruct (frame_expired g t) eqn:Eg.
        -- destruct (IH q1 l w2 _ q' w' log' r H1 Hrun) as (calls & l' & dropped & -> & Hl' & Hperm & Hdrop & Hfail & Hf1 & Hok).
           exists (CNow t :: CTx f (TxOk (Some g)) :: calls), l', (g :: dropped). split; [rewrite <- !app_assoc; reflexivity|]. split; [assumption|].
           cbn [flat_map given_back taken failed clock_read app]. split; [|split; [|auto]].
           ++ apply perm_skip. rewrite <- Permutation_middle. rewrite Hperm. apply Permutation_middle.
           ++ constructor; [exists t; split; [left; reflexivity|assumption]|]. eapply Forall_impl; [|exact Hdrop]. cbn. intros x (t' & Ht' & Hx). exists t'. split; [right; assumption|assumption].
        -- assert (Hlt : (length l < cap)%nat) by (pose proof (qc_cap _ _ _ Hc q (f :: l) H) as Hcp; cbn [length] in Hcp; lia).
           destruct (qc_return _ _ _ Hc q1 l g H1 Hlt) as (q2 & Hret & H2). rewrite Hret in Hrun.
           destruct (IH q2 _ w2 _ q' w' log' r H2 Hrun) as (calls & l' & dropped & -> & Hl' & Hperm & Hdrop & Hfail & Hf1 & Hok).
           exists (CNow t :: CTx f (TxOk (Some g)) :: calls), l', dropped. split; [rewrite <- !app_assoc; reflexivity|]. split; [assumption|].
           cbn [flat_map given_back taken failed clock_read app]. split; [|split; [|auto]].
           ++ apply perm_skip. rewrite <- Hperm. rewrite <- Permutation_middle. change (g :: l ++ flat_map given_back calls) with ((g :: l) ++ flat_map given_back calls).
              apply Permutation_app_tail. clear. induction l as [|x l IH]; [constructor; constructor|]. cbn. destruct (f_id x <? f_id g); [|reflexivity].
              rewrite <- IH. apply perm_swap.
           ++ eapply Forall_impl; [|exact Hdrop]. cbn. intros x (t' & Ht' & Hx). exists t'. split; [right; assumption|assumption].
      * destruct (IH q1 l w2 _ q' w' log' r H1 Hrun) as (calls & l' & dropped & -> & Hl' & Hperm & Hdrop & Hfail & Hf1 & Hok).
        exists (CNow t :: CTx f (TxOk None) :: calls), l', dropped. split; [rewrite <- !app_assoc; reflexivity|]. split; [assumption|].
        cbn [flat_map given_back taken failed clock_read app]. split; [|split; [|auto]].
        -- apply perm_skip. assumption.
        -- eapply Forall_impl; [|exact Hdrop]. cbn. intros x (t' & Ht' & Hx). exists t'. split; [right; assumption|assumption].
      * assert (Hlt : (length l < cap)%nat) by (pose proof (qc_cap _ _ _ Hc q (f :: l) H) as Hcp; cbn [length] in Hcp; lia).
        destruct (qc_return _ _ _ Hc q1 l f H1 Hlt) as (q2 & Hret & H2). rewrite Hret in Hrun. injection Hrun as <- <- <- <-.
        exists [CNow t; CTx f TxWouldBlock], (insert_before f l), []. split; [rewrite <- app_assoc; reflexivity|]. split; [assumption|].
        cbn [flat_map given_back taken failed clock_read app]. split; [|split; [constructor|]; split; [auto|]; split; [cbn; lia|discriminate]].
        rewrite app_nil_r. rewrite insert_before_front; [reflexivity|]. apply (qc_sorted _ _ _ Hc q). assumption.
      * injection Hrun as <- <- <- <-. exists [CNow t; CTx f TxError], l, []. split; [rewrite <- app_assoc; reflexivity|]. split; [assumption|].
        cbn [flat_map given_back taken failed clock_read app]. split; [|split; [constructor|]; split; [congruence|]; split; [cbn; lia|discriminate]].
        rewrite app_nil_r. reflexivity.
Qed.

Lemma flush_no_panic fuel : forall q l w log, R q l -> frun fuel q (w, log) <> Panic.
Proof.
  unfold frun. induction fuel as [|fuel IH]; intros q l w log H; [discriminate|]. cbn [flush_queue]. destruct l as [|f l].
  - destruct (qc_pop_empty _ _ _ Hc q H) as (q1 & Hp & H1). rewrite Hp. discriminate.
  - destruct (qc_pop _ _ _ Hc q f l H) as (q1 & Hp & H1). rewrite Hp. cbn [rec_now]. destruct (now w) as [w1 t].
    assert (Hlt : (length l < cap)%nat) by (pose proof (qc_cap _ _ _ Hc q (f :: l) H) as Hcp; cbn [length] in Hcp; lia).
    destruct (frame_expired f t); [apply (IH _ l); assumption|]. cbn [rec_tx]. destruct (transmit w1 f) as [w2 [[g|]| |]].
    + destruct (frame_expired g t); [apply (IH _ l); assumption|].
      destruct (qc_return _ _ _ Hc q1 l g H1 Hlt) as (q2 & Hret & H2). rewrite Hret. eapply IH. eassumption.
    + apply (IH _ l); assumption.
    + destruct (qc_return _ _ _ Hc q1 l f H1 Hlt) as (q2 & Hret & H2). rewrite Hret. discriminate.
    + discriminate.
Qed.

(** a driver that never gives frames back *)
Definition handle (p : frame * N) : list call :=
  let (f, t) := p in CNow t :: if frame_expired f t then [] else [CTx f (TxOk None)].

Lemma flush_order fuel : forall q l w log q' w' log' r, R q l ->
  (forall w f, match snd (transmit w f) with TxOk (Some _) => False | _ => True end) ->
  frun fuel q (w, log) = Ok (Some (q', (w', log'), r)) ->
  exists done l', R q' l' /\
    match r with
    | FlushOk => l = map fst done /\ l' = [] /\ log' = log ++ flat_map handle done
    | FlushWouldBlock => exists f t rest, l = map fst done ++ f :: rest /\ l' = f :: rest /\ frame_expired f t = false /\
                           log' = log ++ flat_map handle done ++ [CNow t; CTx f TxWouldBlock]
    | FlushError => exists f t, l = map fst done ++ f :: l' /\ frame_expired f t = false /\
                           log' = log ++ flat_map handle done ++ [CNow t; CTx f TxError]
    end.
Proof.
  intros q l w log q' w' log' r H Hd. revert q l w log q' w' log' r H.
  unfold frun. induction fuel as [|fuel IH]; intros q l w log q' w' log' r H Hrun; [discriminate|].
  cbn [flush_queue] in Hrun. destruct l as [|f l].
  - destruct (qc_pop_empty _ _ _ Hc q H) as (q1 & Hp & H1). rewrite Hp in Hrun. injection Hrun as <- <- <- <-.
    exists [], []. cbn. rewrite app_nil_r. auto.
  - destruct (qc_pop _ _ _ Hc q f l H) as (q1 & Hp & H1). rewrite Hp in Hrun. cbn [rec_now] in Hrun.
    destruct (now w) as [w1 t]. destruct (frame_expired f t) eqn:Ex.
    + destruct (IH q1 l w1 _ q' w' log' r H1 Hrun) as (done & l' & Hl' & Hr). exists ((f, t) :: done), l'. split; [assumption|].
      cbn [map fst flat_map handle app]. rewrite Ex. cbn [app]. destruct r.
      * destruct Hr as (-> & -> & ->). rewrite <- app_assoc. auto.
      * destruct Hr as (g & t' & rest & -> & -> & Hg & ->). exists g, t', rest. rewrite <- app_assoc. auto.
      * destruct Hr as (g & t' & -> & Hg & ->). exists g, t'. rewrite <- app_assoc. auto.
    + cbn [rec_tx] in Hrun. specialize (Hd w1 f). destruct (transmit w1 f) as [w2 [[g|]| |]]; cbn [snd] in Hd; [contradiction| | |].
      * destruct (IH q1 l w2 _ q' w' log' r H1 Hrun) as (done & l' & Hl' & Hr). exists ((f, t) :: done), l'. split; [assumption|].
        cbn [map fst flat_map handle app]. rewrite Ex. cbn [app]. destruct r.
        -- destruct Hr as (-> & -> & ->). rewrite <- !app_assoc. auto.
        -- destruct Hr as (g & t' & rest & -> & -> & Hg & ->). exists g, t', rest. rewrite <- !app_assoc. auto.
        -- destruct Hr as (g & t' & -> & Hg & ->). exists g, t'. rewrite <- !app_assoc. auto.
      * assert (Hlt : (length l < cap)%nat) by (pose proof (qc_cap _ _ _ Hc q (f :: l) H) as Hcp; cbn [length] in Hcp; lia).
        destruct (qc_return _ _ _ Hc q1 l f H1 Hlt) as (q2 & Hret & H2). rewrite Hret in Hrun. injection Hrun as <- <- <- <-.
        rewrite insert_before_front in H2 by (apply (qc_sorted _ _ _ Hc q); assumption).
        exists [], (f :: l). split; [assumption|]. exists f, t, l. cbn. rewrite <- app_assoc. auto.
      * injection Hrun as <- <- <- <-. exists [], l. split; [assumption|]. exists f, t. cbn. rewrite <- app_assoc. auto.
Qed.

Lemma flush_ends : (forall w f, match snd (transmit w f) with TxOk (Some _) => False | _ => True end) ->
  forall fuel q l w log, R q l -> (length l < fuel)%nat -> exists q' w' log' r, frun fuel q (w, log) = Ok (Some (q', (w', log'), r)).
Proof.
  intro Hd. unfold frun. induction fuel as [|fuel IH]; intros q l w log H Hf; [lia|]. cbn [flush_queue]. destruct l as [|f l].
  - destruct (qc_pop_empty _ _ _ Hc q H) as (q1 & Hp & H1). rewrite Hp. eauto 6.
  - destruct (qc_pop _ _ _ Hc q f l H) as (q1 & Hp & H1). rewrite Hp. cbn [rec_now]. destruct (now w) as [w1 t]. cbn [length] in Hf.
    destruct (frame_expired f t); [apply (IH _ l); [assumption|lia]|]. cbn [rec_tx]. specialize (Hd w1 f).
    destruct (transmit w1 f) as [w2 [[g|]| |]]; cbn [snd] in Hd; [contradiction| | |].
    + apply (IH _ l); [assumption|lia].
    + assert (Hlt : (length l < cap)%nat) by (pose proof (qc_cap _ _ _ Hc q (f :: l) H) as Hcp; cbn [length] in Hcp; lia).
      destruct (qc_return _ _ _ Hc q1 l f H1 Hlt) as (q2 & Hret & H2). rewrite Hret. eauto 6.
    + eauto 6.
Qed.

(** recording changes nothing *)
Lemma flush_record fuel : forall q w log,
  match flush_queue ops now transmit fuel q w, frun fuel q (w, log) with
  | Ok None, Ok None => True
  | Ok (Some (q1, w1, r1)), Ok (Some (q2, (w2, _), r2)) => q1 = q2 /\ w1 = w2 /\ r1 = r2
  | Panic, Panic => True
  | _, _ => False
  end.
Proof.
  unfold frun. induction fuel as [|fuel IH]; intros q w log; [exact I|]. cbn [flush_queue rec_now].
  destruct (q_pop ops q) as [[q1 [f|]]|]; [|auto|exact I]. destruct (now w) as [w1 t].
  destruct (frame_expired f t); [apply IH|]. cbn [rec_tx]. destruct (transmit w1 f) as [w2 [[g|]| |]].
  - destruct (frame_expired g t); [apply IH|]. destruct (q_return ops q1 g) as [[q2 [|]]|]; [apply IH|exact I|exact I].
  - apply IH.
  - destruct (q_return ops q1 f) as [[q2 [|]]|]; auto.
  - auto.
Qed.
End Flush.

(** ** redundant drivers *)
Section Red.
Context {D0 D1 : Type}.
Variables (reserve0 : D0 -> nat -> D0 * bool) (reserve1 : D1 -> nat -> D1 * bool).
Variables (transmit0 : D0 -> frame -> D0 * tx_res) (transmit1 : D1 -> frame -> D1 * tx_res).

Lemma rd_send_all fs : forall d0 d1 ok0 ok1, ok0 || ok1 = true ->
  (ok0 = true -> snd (send_all transmit0 d0 fs) = PushOk) -> (ok1 = true -> snd (send_all transmit1 d1 fs) = PushOk) ->
  send_all (rd_transmit transmit0 transmit1) (Redundant d0 d1 ok0 ok1) fs =
  (Redundant (if ok0 then fst (send_all transmit0 d0 fs) else d0) (if ok1 then fst (send_all transmit1 d1 fs) else d1) ok0 ok1, PushOk).
Proof.
  induction fs as [|f fs IH]; intros d0 d1 ok0 ok1 Ho H0 H1; cbn [send_all].
  - destruct ok0, ok1; reflexivity.
  - unfold rd_transmit. cbn [rd_ok0 rd_ok1 rd_0 rd_1]. cbn [send_all] in H0, H1.
    destruct ok0, ok1; try discriminate.
    + specialize (H0 eq_refl). specialize (H1 eq_refl). destruct (transmit0 d0 f) as [e0 [r0| |]]; try discriminate.
      destruct (transmit1 d1 f) as [e1 [r1| |]]; try discriminate. fold (rd_transmit transmit0 transmit1). rewrite IH; auto.
    + specialize (H0 eq_refl). destruct (transmit0 d0 f) as [e0 [r0| |]]; try discriminate.
      fold (rd_transmit transmit0 transmit1). rewrite IH; auto. discriminate.
    + specialize (H1 eq_refl). destruct (transmit1 d1 f) as [e1 [r1| |]]; try discriminate.
      fold (rd_transmit transmit0 transmit1). rewrite IH; auto. discriminate.
Qed.
End Red.

(** ** deduplication *)
Inductive dd_hist (n : nat) (timeout : N) : list rx_event -> dedup -> Prop :=
| DdNew d : dd_new n timeout = Ok d -> dd_hist n timeout [] d
| DdStep h d ts i d' a : dd_hist n timeout h d -> dd_accept d ts i = Ok (d', a) -> dd_hist n timeout (RxEvent ts i a :: h) d'.

Lemma dd_inv n timeout h d : dd_hist n timeout h d ->
  dd_timeout d = timeout /\ length (dd_last d) = n /\ (dd_active d < n)%nat /\
  match last_accepted h with
  | Some (ts, i) => dd_active d = i /\ nth_error (dd_last d) i = Some (Some ts)
  | None => h = [] /\ dd_active d = O /\ nth_error (dd_last d) O = Some None
  end.
Proof.
  induction 1 as [d Hn|h d ts i d' a Hh IH Ha].
  - unfold dd_new in Hn. destruct (Nat.eqb_spec n 0) as [|Hne]; [discriminate|]. injection Hn as <-. cbn [dd_timeout dd_last dd_active last_accepted].
    rewrite repeat_length. repeat split; [lia|]. destruct n; [lia|reflexivity].
  - destruct IH as (Ht & Hl & Hact & Hlast). unfold dd_accept, store in Ha. rewrite Hl in Ha.
    destruct (Nat.ltb_spec i n) as [Hi|]; [|discriminate]. unfold dd_timed_out in Ha. cbn [dd_last dd_active dd_timeout] in Ha.
    rewrite nth_error_upd in Ha.
    assert (Hsome : nth_error (upd (dd_last d) i (Some ts)) i = Some (Some ts)).
    { rewrite nth_error_upd, Nat.eqb_refl. destruct (nth_error (dd_last d) i) eqn:E; [reflexivity|]. apply nth_error_None in E. lia. }
    destruct (Nat.eqb_spec i (dd_active d)) as [E|E].
    + destruct (nth_error (dd_last d) (dd_active d)) eqn:En; [|discriminate].
      assert (Hd' : d' = Dedup (upd (dd_last d) i (Some ts)) i (dd_timeout d) /\ a = true).
      { rewrite <- E in Ha. destruct (t_lt (t_add ts (dd_timeout d)) ts); injection Ha as <- <-; rewrite Nat.eqb_refl; auto. }
      destruct Hd' as (-> & ->). cbn [dd_timeout dd_last dd_active last_accepted e_accepted e_ts e_index]. rewrite upd_length. auto.
    + destruct (nth_error (dd_last d) (dd_active d)) as [[la|]|] eqn:En; [| |discriminate].
      * destruct (t_lt (t_add la (dd_timeout d)) ts) eqn:Eo; injection Ha as <- <-; cbn [dd_timeout dd_last dd_active last_accepted e_accepted e_ts e_index]; rewrite upd_length.
        -- rewrite Nat.eqb_refl. cbn [e_accepted e_ts e_index]. auto.
        -- replace (i =? dd_active d)%nat with false by (symmetry; apply Nat.eqb_neq; assumption).
           split; [assumption|]. split; [assumption|]. split; [assumption|]. destruct (last_accepted h) as [[ts0 i0]|].
           ++ destruct Hlast as (Ha0 & Hn0). split; [assumption|]. rewrite nth_error_upd. replace (i =? i0)%nat with false by (symmetry; apply Nat.eqb_neq; congruence). assumption.
           ++ destruct Hlast as (_ & Ha0 & Hn0). congruence.
      * injection Ha as <- <-. cbn [dd_timeout dd_last dd_active last_accepted e_accepted e_ts e_index]. rewrite upd_length, Nat.eqb_refl. auto.
Qed.

Lemma dd_accept_spec n timeout h d ts i : dd_hist n timeout h d -> (i < n)%nat ->
  exists d' a, dd_accept d ts i = Ok (d', a) /\
    (a = true <-> match last_accepted h with None => True | Some (last, cur) => i = cur \/ t_lt (t_add last timeout) ts = true end).
Proof.
  intros Hh Hi. destruct (dd_inv _ _ _ _ Hh) as (Ht & Hl & Hact & Hlast).
  unfold dd_accept, store. rewrite Hl. replace (i <? n)%nat with true by (symmetry; apply Nat.ltb_lt; assumption).
  unfold dd_timed_out. cbn [dd_last dd_active dd_timeout]. rewrite nth_error_upd.
  destruct (Nat.eqb_spec i (dd_active d)) as [E|E].
  - destruct (nth_error (dd_last d) (dd_active d)) eqn:En; [|apply nth_error_None in En; lia].
    eexists; eexists; split; [reflexivity|]. cbn [dd_active]. rewrite <- E.
    assert (Hb : (i =? (if t_lt (t_add ts (dd_timeout d)) ts then i else i))%nat = true) by (destruct (t_lt _ _); apply Nat.eqb_refl).
    rewrite Hb. destruct (last_accepted h) as [[l0 c0]|]; [|tauto]. destruct Hlast as (Hc & _). split; [|auto]. left. congruence.
  - destruct (last_accepted h) as [[l0 c0]|].
    + destruct Hlast as (Hc & Hn). rewrite Hc, Hn, Ht. eexists; eexists; split; [reflexivity|]. cbn [dd_active].
      destruct (t_lt (t_add l0 timeout) ts).
      * rewrite Nat.eqb_refl. tauto.
      * split; [intro Hx; apply Nat.eqb_eq in Hx; auto|]. intros [->|?]; [apply Nat.eqb_refl|discriminate].
    + destruct Hlast as (_ & Hc & Hn). rewrite Hc, Hn. eexists; eexists; split; [reflexivity|]. cbn [dd_active]. rewrite Nat.eqb_refl. tauto.
Qed.

(** ** states of an array queue *)
(** whatever a push does to its driver, it does through [reserve] and [transmit] *)
Lemma push_bytes_inv {D} (P : D -> Prop) send : (forall d data d' e, P d -> send d data = Ok (d', e) -> P d') ->
  forall bytes d b n d' b' n' e, P d -> push_bytes send bytes d b n = Ok (d', b', n', e) -> P d'.
Proof.
  intros Hs. induction bytes as [|x bytes IH]; intros d b n d' b' n' e Hp H; cbn [push_bytes] in H; [injection H as <- _ _ _; assumption|].
  destruct (bd_add b x) as [[b1 [data|]]|]; [| |discriminate].
  - destruct (send d data) as [[d1 [e1|]]|] eqn:Es; [| |discriminate].
    + injection H as <- _ _ _. eapply Hs; eassumption.
    + eapply IH; [|exact H]. eapply Hs; eassumption.
  - eapply IH; eassumption.
Qed.

Lemma push_inner_inv {D} (P : D -> Prop) reserve transmit :
  (forall d n, P d -> P (fst (reserve d n))) -> (forall d f, P d -> P (fst (transmit d f))) ->
  forall fcap mtu d t d' r, P d -> @push_inner D reserve transmit fcap mtu d t = Ok (d', r) -> P d'.
Proof.
  intros Hr Ht fcap mtu d t d' r Hp H. unfold push_inner in H.
  assert (Hsend : forall ts id loop d data d' e, P d -> push_frame transmit fcap ts id loop d data = Ok (d', e) -> P d').
  { intros ts id loop d0 data d0' e Hp0 H0. unfold push_frame in H0. destruct (frame_new fcap ts id loop data) as [f|]; [|discriminate].
    specialize (Ht d0 f Hp0). destruct (transmit d0 f) as [d1 [| |]]; injection H0 as <- _; assumption. }
  destruct (frame_stats _ _) as [[nf pad]|]; [|discriminate]. specialize (Hr d nf Hp). destruct (reserve d nf) as [d1 [|]]; cbn [fst] in Hr; [|injection H as <- _; assumption].
  destruct (make_can_id _ _) as [id|]; [|discriminate].
  destruct (push_bytes _ _ d1 _ _) as [[[[d2 b2] n2] [e2|]]|] eqn:E1; [| |discriminate].
  - injection H as <- _. eapply push_bytes_inv; [|exact Hr|exact E1]. intros ? ? ? ?; apply Hsend.
  - assert (P d2) by (eapply push_bytes_inv; [|exact Hr|exact E1]; intros ? ? ? ?; apply Hsend).
    destruct (push_bytes _ _ d2 _ _) as [[[[d3 b3] n3] [e3|]]|] eqn:E2; [| |discriminate].
    + injection H as <- _. eapply push_bytes_inv; [|eassumption|exact E2]. intros ? ? ? ?; apply Hsend.
    + assert (P d3) by (eapply push_bytes_inv; [|eassumption|exact E2]; intros ? ? ? ?; apply Hsend).
      destruct (bd_finish b3) as [data|]; [|discriminate].
      destruct (push_frame _ _ _ _ _ d3 data) as [[d4 [e4|]]|] eqn:E3; [| |discriminate]; injection H as <- _; eapply Hsend; eassumption.
Qed.

(** the states an array queue of capacity [cap] can get into: by its own operations, by flushes and by pushes of transfers *)
Inductive queue_reach (cap : nat) : array_queue -> Prop :=
| QNew : queue_reach cap (aq_new cap)
| QStep q op q' o : queue_reach cap q -> aq_step q op = Ok (q', o) -> queue_reach cap q'
| QFlush q W (now : W -> W * N) transmit fuel w q' w' r : queue_reach cap q ->
    flush_queue aq_ops now transmit fuel q w = Ok (Some (q', w', r)) -> queue_reach cap q'
| QPush q fcap mtu t q' r : queue_reach cap q ->
    push_inner (lift_reserve aq_ops) (lift_transmit aq_ops) fcap mtu (Ok q) t = Ok (Ok q', r) -> queue_reach cap q'.

Lemma reach_holds cap q : queue_reach cap q -> exists l, holds cap q l.
Proof.
  induction 1 as [|q op q' o _ (l & IH) Hs|q W now transmit fuel w q' w' r _ (l & IH) Hf|q fcap mtu t q' r _ IH Hp].
  - eexists. apply holds_new.
  - destruct (aq_step_spec cap q l op IH) as (q1 & E & H1). rewrite Hs in E. injection E as -> _. eauto.
  - pose proof (flush_record aq_ops now transmit fuel q w []) as Hrec. rewrite Hf in Hrec.
    destruct (frun aq_ops now transmit fuel q (w, [])) as [[[[q2 [w2 lg]] r2]|]|] eqn:E; try contradiction. destruct Hrec as (-> & _ & _).
    destruct (flush_accounts aq_ops cap (holds cap) now transmit (aq_correct cap) fuel q l w [] q2 w2 lg r2 IH E) as (_ & l' & _ & _ & H' & _). eauto.
  - apply (push_inner_inv (fun d => match d with Ok q => exists l, holds cap q l | Panic => True end) (lift_reserve aq_ops) (lift_transmit aq_ops)) in Hp; [exact Hp| | |exact IH].
    + intros [q0|] n H0; [|exact I]. destruct H0 as (l0 & H0). cbn [lift_reserve q_reserve aq_ops]. rewrite (aq_reserve_spec cap q0 l0 n H0). cbn [fst]. eauto.
    + intros [q0|] f H0; [|exact I]. destruct H0 as (l0 & H0). cbn [lift_transmit]. unfold qd_transmit. cbn [q_push aq_ops].
      pose proof (aq_push_spec cap q0 l0 f H0) as Hx. destruct (length l0 <? cap)%nat.
      * destruct Hx as (q1 & -> & H1). cbn [fst]. eauto.
      * rewrite Hx. cbn [fst]. eauto.
Qed.

Lemma holds_drain cap q l : holds cap q l -> drain (S cap) q = l.
Proof. intro H. apply (drain_spec cap); [assumption|]. pose proof (holds_length _ _ _ H). lia. Qed.
