(** Proofs about bit length sets. *)
From Coq Require Import Sorted Permutation.
From Verif Require Import Base BlsModel BlsSpec.
Ltac Zify.zify_post_hook ::= Z.div_mod_to_equations.

(** ** Induction and the list forms of the specification *)

Definition op_rect' (P : operator -> Prop)
  (HL : forall l, P (Leaf l)) (HP : forall c a, P c -> P (Padding c a)) (HC : forall cs, Forall P cs -> P (Concatenate cs))
  (HR : forall c n, P c -> P (Repeat c n)) (HRR : forall c n, P c -> P (RangeRepeat c n)) (HU : forall cs, Forall P cs -> P (Union cs)) :
  forall o, P o :=
  fix go o :=
    match o with
    | Leaf l => HL l
    | Padding c a => HP c a (go c)
    | Concatenate cs => HC cs ((fix all cs : Forall P cs := match cs with [] => Forall_nil P | c :: r => Forall_cons c (go c) (all r) end) cs)
    | Repeat c n => HR c n (go c)
    | RangeRepeat c n => HRR c n (go c)
    | Union cs => HU cs ((fix all cs : Forall P cs := match cs with [] => Forall_nil P | c :: r => Forall_cons c (go c) (all r) end) cs)
    end.

Lemma each_iff cs : forall vs,
  (fix each (cs : list operator) (vs : list N) : Prop :=
     match cs, vs with [], [] => True | c :: cs', x :: vs' => den c x /\ each cs' vs' | _, _ => False end) cs vs <-> Forall2 den cs vs.
Proof.
  induction cs as [|c cs IH]; intros [|v vs]; split; intro H; try constructor; try (destruct H; fail); try (inversion H; fail).
  - apply H.
  - apply IH, H.
  - inversion H; assumption.
  - inversion H; subst. apply IH. assumption.
Qed.
Lemma den_concat cs v : den (Concatenate cs) v <-> exists vs, Forall2 den cs vs /\ v = total vs.
Proof. cbn [den]. split; intros (vs & H1 & H2); exists vs; (split; [apply each_iff; assumption|assumption]). Qed.
Lemma den_union cs v : den (Union cs) v <-> Exists (fun c => den c v) cs.
Proof.
  cbn [den]. induction cs as [|c cs IH]; split; intro H; try (destruct H; fail).
  - inversion H.
  - destruct H as [H|H]; [left; assumption|right; apply IH, H].
  - inversion H; subst; [left; assumption|right; apply IH; assumption].
Qed.
Lemma all_iff (P : operator -> Prop) cs :
  (fix all (cs : list operator) : Prop := match cs with [] => True | c :: cs' => P c /\ all cs' end) cs <-> Forall P cs.
Proof.
  induction cs as [|c cs IH]; split; intro H; try constructor; try exact I.
  - apply H.
  - apply IH, H.
  - inversion H; assumption.
  - inversion H; subst. apply IH. assumption.
Qed.

(** ** Sets *)

Lemma insert_In x l y : In y (set_insert x l) <-> y = x \/ In y l.
Proof.
  induction l as [|z l IH]; cbn [set_insert]; [cbn [In]; intuition|]. destruct (N.compare_spec x z); subst; cbn [In]; rewrite ?IH; intuition.
Qed.
Lemma insert_set x l : is_set l -> is_set (set_insert x l).
Proof.
  unfold is_set. induction l as [|z l IH]; intro H; cbn [set_insert]; [repeat constructor|]. inversion H; subst. destruct (N.compare_spec x z); [assumption| |].
  - constructor; [assumption|]. constructor; [assumption|]. eapply Forall_impl; [|eassumption]. intros; lia.
  - constructor; [apply IH; assumption|]. apply Forall_forall. intros y Hy. apply insert_In in Hy as [->|Hy]; [assumption|]. rewrite Forall_forall in *. auto.
Qed.
Lemma fold_insert l : forall s, (is_set s -> is_set (fold_left (fun s x => set_insert x s) l s)) /\
  forall y, In y (fold_left (fun s x => set_insert x s) l s) <-> In y l \/ In y s.
Proof.
  induction l as [|x l IH]; intro s; cbn [fold_left]; [cbn [In]; intuition|]. destruct (IH (set_insert x s)) as (H1 & H2). split.
  - intro Hs. apply H1, insert_set, Hs.
  - intro y. rewrite H2, insert_In. cbn [In]. intuition.
Qed.
Lemma set_of_set l : is_set (set_of l).
Proof. apply fold_insert. constructor. Qed.
Lemma set_of_In l y : In y (set_of l) <-> In y l.
Proof. unfold set_of. rewrite (proj2 (fold_insert l [])). cbn [In]. tauto. Qed.

Lemma set_eqb_eq a : forall b, set_eqb a b = true <-> a = b.
Proof.
  induction a as [|x a IH]; intros [|y b]; cbn [set_eqb]; try (split; congruence). rewrite andb_true_iff, N.eqb_eq, IH. split; [intros (-> & ->); reflexivity|]. intro H. split; congruence.
Qed.
Lemma set_ext a : forall b, is_set a -> is_set b -> (forall x, In x a <-> In x b) -> a = b.
Proof.
  unfold is_set. induction a as [|x a IH]; intros [|y b] Ha Hb H.
  - reflexivity.
  - destruct (proj2 (H y) (or_introl eq_refl)).
  - destruct (proj1 (H x) (or_introl eq_refl)).
  - inversion Ha as [|? ? Ha1 Ha2]; inversion Hb as [|? ? Hb1 Hb2]; subst. rewrite Forall_forall in Ha2, Hb2.
    assert (x = y) as ->.
    { destruct (proj1 (H x) (or_introl eq_refl)) as [E|E]; [congruence|]. destruct (proj2 (H y) (or_introl eq_refl)) as [E2|E2]; [congruence|]. specialize (Ha2 y E2). specialize (Hb2 x E). lia. }
    f_equal. apply IH; [assumption|assumption|]. intro z. split; intro Hz.
    + destruct (proj1 (H z) (or_intror Hz)) as [E|E]; [|assumption]. subst. specialize (Ha2 z Hz). lia.
    + destruct (proj2 (H z) (or_intror Hz)) as [E|E]; [|assumption]. subst. specialize (Hb2 z Hz). lia.
Qed.

(** ** Lists of results *)

Lemma mapM_ok {A B} (f : A -> res B) (g : A -> B) l : (forall x, In x l -> f x = Ok (g x)) -> mapM f l = Ok (map g l).
Proof.
  induction l as [|x l IH]; intro H; [reflexivity|]. cbn [mapM map]. change ((fix go (l : list A) : res (list B) := match l with [] => Ok [] | x :: r => bindr (f x) (fun y => bindr (go r) (fun ys => Ok (y :: ys))) end) l) with (mapM f l).
  rewrite H by (left; reflexivity). cbn [bindr]. rewrite IH by (intros; apply H; right; assumption). reflexivity.
Qed.
Lemma mapM_Forall2 {A B} (f : A -> res B) l (R : A -> B -> Prop) : Forall (fun x => exists y, f x = Ok y /\ R x y) l -> exists ys, mapM f l = Ok ys /\ Forall2 R l ys.
Proof.
  induction 1 as [|x l (y & E & HR) _ (ys & Es & Hs)]; [exists []; split; [reflexivity|constructor]|].
  exists (y :: ys). cbn [mapM]. change ((fix go (l : list A) : res (list B) := match l with [] => Ok [] | x :: r => bindr (f x) (fun y => bindr (go r) (fun ys => Ok (y :: ys))) end) l) with (mapM f l).
  rewrite E, Es. split; [reflexivity|constructor; assumption].
Qed.

Lemma chk64_ok n : n < 2 ^ 64 -> chk64 n = Ok n.
Proof. intro H. unfold chk64. destruct (N.ltb_spec n (2 ^ 64)); [reflexivity|lia]. Qed.
Lemma sum64_from l : forall s, s + total l < 2 ^ 64 -> fold_left (fun s x => bindr s (fun s => add64 s x)) l (Ok s) = Ok (s + total l).
Proof.
  induction l as [|x l IH]; intros s H; cbn [fold_left]; unfold total in *; cbn [fold_right] in *; [rewrite N.add_0_r; reflexivity|]. fold (total l) in *.
  cbn [bindr]. unfold add64. rewrite chk64_ok by lia. rewrite IH by lia. f_equal. lia.
Qed.
Lemma sum64_ok l : total l < 2 ^ 64 -> sum64 l = Ok (total l).
Proof. intro H. unfold sum64. rewrite sum64_from by assumption. reflexivity. Qed.
Lemma total_app a b : total (a ++ b) = total a + total b.
Proof. unfold total. induction a as [|x a IH]; cbn [app fold_right]; [reflexivity|]. rewrite IH. lia. Qed.
Lemma total_cons x l : total (x :: l) = x + total l.
Proof. reflexivity. Qed.
Lemma total_perm a b : Permutation a b -> total a = total b.
Proof. induction 1; rewrite ?total_cons in *; [reflexivity|lia|lia|congruence]. Qed.
Lemma total_repeat x n : total (repeat x n) = x * N.of_nat n.
Proof. induction n as [|n IH]; [cbn [repeat]; unfold total; cbn [fold_right]; lia|]. cbn [repeat]. rewrite total_cons, IH. lia. Qed.
Lemma total_bound b l : Forall (fun x => x <= b) l -> total l <= b * N.of_nat (length l).
Proof. induction 1 as [|x l Hx _ IH]; [unfold total; cbn [fold_right length]; lia|]. rewrite total_cons. cbn [length]. lia. Qed.
Lemma total_bound_low b l : Forall (fun x => b <= x) l -> b * N.of_nat (length l) <= total l.
Proof. induction 1 as [|x l Hx _ IH]; [unfold total; cbn [fold_right length]; lia|]. rewrite total_cons. cbn [length]. lia. Qed.
Lemma total_le2 l : forall l', Forall2 N.le l l' -> total l <= total l'.
Proof. induction 1; [reflexivity|]. rewrite !total_cons. lia. Qed.

Lemma cartesian_In ls : forall vs, In vs (cartesian ls) <-> Forall2 (fun l v => In v l) ls vs.
Proof.
  induction ls as [|l ls IH]; intro vs; cbn [cartesian].
  - split; [intros [<-|[]]; constructor|]. intro H. inversion H. left. reflexivity.
  - rewrite in_flat_map. split.
    + intros (x & Hx & H). apply in_map_iff in H as (ws & <- & H). constructor; [assumption|apply IH, H].
    + intro H. inversion H; subst. exists y. split; [assumption|]. apply in_map. apply IH. assumption.
Qed.

Lemma combos_cons k x r : combos (S k) (x :: r) = map (cons x) (combos k (x :: r)) ++ combos (S k) r.
Proof. reflexivity. Qed.
Lemma combos_In k : forall l vs, In vs (combos k l) -> length vs = k /\ Forall (fun v => In v l) vs.
Proof.
  induction k as [|k IH]; intros l vs H.
  - destruct H as [<-|[]]. split; [reflexivity|constructor].
  - induction l as [|x r IHl]; [destruct H|]. rewrite combos_cons in H. apply in_app_or in H as [H|H].
    + apply in_map_iff in H as (ws & <- & H). apply IH in H as (H1 & H2). split; [cbn [length]; congruence|]. constructor; [left; reflexivity|assumption].
    + apply IHl in H as (H1 & H2). split; [assumption|]. eapply Forall_impl; [|exact H2]. intros v Hv. right. assumption.
Qed.
Lemma combos_complete l : forall k vs, length vs = k -> Forall (fun v => In v l) vs -> exists ws, In ws (combos k l) /\ Permutation ws vs.
Proof.
  induction l as [|x r IHl]; intros k vs Hk Hv.
  - destruct vs as [|v vs]; [|inversion Hv; contradiction]. subst k. exists []. split; [left; reflexivity|constructor].
  - revert vs Hk Hv. induction k as [|k IHk]; intros vs Hk Hv.
    + destruct vs; [|discriminate]. exists []. split; [left; reflexivity|constructor].
    + destruct (in_dec N.eq_dec x vs) as [Hin|Hnin].
      * apply in_split in Hin as (a & b & ->). assert (Hab : length (a ++ b) = k) by (rewrite app_length in *; cbn [length] in Hk; lia).
        assert (HF : Forall (fun v => In v (x :: r)) (a ++ b)). { apply Forall_app in Hv as (Ha & Hb). apply Forall_app. split; [assumption|]. inversion Hb; assumption. }
        destruct (IHk (a ++ b) Hab HF) as (ws & H1 & H2). exists (x :: ws). split.
        -- rewrite combos_cons. apply in_or_app. left. apply in_map, H1.
        -- rewrite H2. apply Permutation_middle.
      * destruct (IHl (S k) vs Hk) as (ws & H1 & H2).
        { rewrite Forall_forall in *. intros v Hvs. destruct (Hv v Hvs) as [<-|]; [contradiction|assumption]. }
        exists ws. split; [|assumption]. rewrite combos_cons. apply in_or_app. right. assumption.
Qed.

(** ** Padding *)

Definition alup (a u : N) : N := (u / a + (if u mod a =? 0 then 0 else 1)) * a.
Lemma alup_padded a u : 0 < a -> padded a u (alup a u).
Proof.
  intro Ha. unfold padded, alup. pose proof (N.div_mod u a ltac:(lia)) as E. pose proof (N.mod_lt u a ltac:(lia)) as Hm.
  rewrite N.mod_mul by lia. rewrite N.mul_add_distr_r, (N.mul_comm (u / a) a). destruct (N.eqb_spec (u mod a) 0); lia.
Qed.
Lemma padded_unique a u v w : 0 < a -> padded a u v -> padded a u w -> v = w.
Proof.
  intros Ha (H1 & H2 & H3) (G1 & G2 & G3). apply N.mod_divide in H3, G3; try lia. destruct H3 as (x & ->), G3 as (y & ->).
  assert (x = y); [|congruence]. nia.
Qed.
Lemma padded_mono a u v u' v' : 0 < a -> padded a u v -> padded a u' v' -> u <= u' -> v <= v'.
Proof.
  intros Ha (H1 & H2 & H3) (G1 & G2 & G3) Hu. apply N.mod_divide in H3, G3; try lia. destruct H3 as (x & ->), G3 as (y & ->). assert (x <= y) by nia. nia.
Qed.
Lemma align_up_ok a u : 0 < a -> alup a u < 2 ^ 64 -> align_up u a = Ok (alup a u).
Proof. intros Ha H. unfold align_up. destruct (N.eqb_spec a 0); [lia|]. unfold mul64. apply chk64_ok. exact H. Qed.

Lemma add_mod_cancel d x y : d <> 0 -> (x + y) mod d = x mod d -> y mod d = 0.
Proof.
  intros Hd H. rewrite N.add_mod in H by assumption. pose proof (N.mod_lt x d Hd). pose proof (N.mod_lt y d Hd).
  destruct (N.lt_ge_cases (x mod d + y mod d) d) as [Hlt|Hge].
  - rewrite N.mod_small in H by assumption. lia.
  - assert (E : (x mod d + y mod d) mod d = x mod d + y mod d - d).
    { symmetry. apply (N.mod_unique _ _ 1); lia. }
    lia.
Qed.

Lemma alup_mod a d u : 0 < a -> 0 < d -> (N.divide a d \/ N.divide d a) -> alup a (u mod d) mod d = alup a u mod d.
Proof.
  intros Ha Hd [(k & ->)|(k & ->)].
  - assert (E : alup a u = alup a (u mod (k * a)) + (u / (k * a)) * (k * a)).
    { apply (padded_unique a u); [assumption|apply alup_padded; assumption|]. destruct (alup_padded a (u mod (k * a)) Ha) as (P1 & P2 & P3).
      pose proof (N.div_mod u (k * a) ltac:(lia)) as Eu. split; [lia|]. split; [lia|]. rewrite N.mul_assoc, N.mod_add by lia. assumption. }
    rewrite E. rewrite N.mod_add by lia. reflexivity.
  - assert (E : forall w, alup (k * d) w mod d = 0). { intro w. unfold alup. rewrite N.mul_assoc. apply N.mod_mul. lia. }
    rewrite !E. reflexivity.
Qed.

(** ** Bounds *)

Lemma F2_total cs (ms : list N) : Forall2 (fun c m => forall v, den c v -> m <= v) cs ms -> forall vs, Forall2 den cs vs -> total ms <= total vs.
Proof. induction 1; intros vs Hv; inversion Hv; subst; [reflexivity|]. rewrite !total_cons. specialize (IHForall2 l'0 ltac:(assumption)). specialize (H y0 ltac:(assumption)). lia. Qed.
Lemma F2_total_hi cs (ms : list N) : Forall2 (fun c m => forall v, den c v -> v <= m) cs ms -> forall vs, Forall2 den cs vs -> total vs <= total ms.
Proof. induction 1; intros vs Hv; inversion Hv; subst; [reflexivity|]. rewrite !total_cons. specialize (IHForall2 l'0 ltac:(assumption)). specialize (H y0 ltac:(assumption)). lia. Qed.
Lemma Forall2_and {A B} (P Q : A -> B -> Prop) l l' : Forall2 (fun a b => P a b /\ Q a b) l l' -> Forall2 P l l' /\ Forall2 Q l l'.
Proof. induction 1 as [|? ? ? ? (H1 & H2) _ (IH1 & IH2)]; split; constructor; assumption. Qed.
Lemma fold_min_spec l : forall x, In (fold_left N.min l x) (x :: l) /\ forall y, In y (x :: l) -> fold_left N.min l x <= y.
Proof.
  induction l as [|z l IH]; intro x; cbn [fold_left].
  - split; [left; reflexivity|]. intros y [->|[]]. lia.
  - destruct (IH (N.min x z)) as (H1 & H2). split.
    + destruct H1 as [E|H1]; [|right; right; assumption]. rewrite <- E. destruct (N.min_spec x z) as [(_ & ->)|(_ & ->)]; [left|right; left]; reflexivity.
    + intros y [<-|[<-|Hy]]; [|  |apply H2; right; assumption]; specialize (H2 (N.min x z) (or_introl eq_refl)); lia.
Qed.
Lemma fold_max_spec l : forall x, In (fold_left N.max l x) (x :: l) /\ forall y, In y (x :: l) -> y <= fold_left N.max l x.
Proof.
  induction l as [|z l IH]; intro x; cbn [fold_left].
  - split; [left; reflexivity|]. intros y [->|[]]. lia.
  - destruct (IH (N.max x z)) as (H1 & H2). split.
    + destruct H1 as [E|H1]; [|right; right; assumption]. rewrite <- E. destruct (N.max_spec x z) as [(_ & ->)|(_ & ->)]; [right; left|left]; reflexivity.
    + intros y [<-|[<-|Hy]]; [|  |apply H2; right; assumption]; specialize (H2 (N.max x z) (or_introl eq_refl)); lia.
Qed.
Lemma Forall2_In_l {A B} (R : A -> B -> Prop) l l' x : Forall2 R l l' -> In x l -> exists y, In y l' /\ R x y.
Proof. induction 1; intro Hin; [destruct Hin|]. destruct Hin as [<-|Hin]; [exists y; split; [left; reflexivity|assumption]|]. destruct (IHForall2 Hin) as (z & Hz & HR). exists z. split; [right; assumption|assumption]. Qed.
Lemma Forall2_In_r {A B} (R : A -> B -> Prop) l l' y : Forall2 R l l' -> In y l' -> exists x, In x l /\ R x y.
Proof. induction 1; intro Hin; [destruct Hin|]. destruct Hin as [<-|Hin]; [exists x; split; [left; reflexivity|assumption]|]. destruct (IHForall2 Hin) as (z & Hz & HR). exists z. split; [right; assumption|assumption]. Qed.

Lemma set_min_spec l : is_set l -> l <> [] -> exists m, set_min l = Ok m /\ In m l /\ forall v, In v l -> m <= v.
Proof.
  intros Hs Hn. destruct l as [|x l]; [contradiction|]. exists x. split; [reflexivity|]. split; [left; reflexivity|]. inversion Hs; subst. rewrite Forall_forall in *. intros v [<-|Hv]; [lia|]. specialize (H2 v Hv). lia.
Qed.
Lemma set_max_spec l : is_set l -> l <> [] -> exists m, set_max l = Ok m /\ In m l /\ forall v, In v l -> v <= m.
Proof.
  intros Hs Hn. unfold set_max. destruct (rev l) as [|x r] eqn:E; [apply (f_equal (@rev N)) in E; rewrite rev_involutive in E; contradiction|].
  assert (El : l = rev r ++ [x]). { rewrite <- (rev_involutive l), E. reflexivity. }
  exists x. split; [reflexivity|]. rewrite El. split; [apply in_or_app; right; left; reflexivity|]. rewrite El in Hs. clear - Hs. unfold is_set in Hs.
  induction (rev r) as [|y q IH]; intros v Hv; cbn [app] in *.
  - destruct Hv as [->|[]]. lia.
  - inversion Hs; subst. destruct Hv as [<-|Hv]; [|apply IH; assumption]. rewrite Forall_forall in H2. specialize (H2 x). enough (y < x) by lia. apply H2. apply in_or_app. right. left. reflexivity.
Qed.

Lemma bls_ok_bound o v : bls_ok o -> den o v -> v < 2 ^ 64.
Proof. intros H. destruct o; apply H. Qed.
Lemma bls_ok_children cs : bls_ok (Concatenate cs) \/ bls_ok (Union cs) -> cs <> [] /\ Forall bls_ok cs.
Proof. intros [(_ & H1 & H2)|(_ & H1 & H2)]; (split; [assumption|apply all_iff, H2]). Qed.

Definition is_min (o : operator) (m : N) : Prop := den o m /\ forall v, den o v -> m <= v.
Definition is_max (o : operator) (m : N) : Prop := den o m /\ forall v, den o v -> v <= m.

Lemma Forall_mp {A} (P Q : A -> Prop) l : Forall (fun x => P x -> Q x) l -> Forall P l -> Forall Q l.
Proof. induction 1; intro H'; inversion H'; constructor; auto. Qed.
Lemma Forall_repeat {A} (P : A -> Prop) x n : P x -> Forall P (repeat x n).
Proof. intro H. induction n; constructor; assumption. Qed.

Theorem op_min_spec : forall o, bls_ok o -> exists m, op_min o = Ok m /\ is_min o m.
Proof.
  apply (op_rect' (fun o => bls_ok o -> exists m, op_min o = Ok m /\ is_min o m)).
  - intros l (_ & Hs & Hn). apply set_min_spec; assumption.
  - intros c a IH Hok. pose proof Hok as (Hb & Hc & Ha). destruct (IH Hc) as (m & E & Hm & Hmin). cbn [op_min]. rewrite E. cbn [bindr].
    assert (Hd : den (Padding c a) (alup a m)) by (exists m; split; [assumption|apply alup_padded; lia]).
    rewrite align_up_ok by (try lia; apply Hb, Hd). eexists. split; [reflexivity|]. split; [assumption|]. intros v (u & Hu & Hp). eapply padded_mono; [| |exact Hp|apply Hmin, Hu]; [lia|apply alup_padded; lia].
  - intros cs IH Hok. destruct (bls_ok_children cs (or_introl Hok)) as (_ & Hcs). pose proof (Forall_mp _ _ _ IH Hcs) as H. apply mapM_Forall2 in H as (ms & E & HF). apply Forall2_and in HF as (H1 & H2).
    cbn [op_min]. rewrite E. cbn [bindr]. assert (Hd : den (Concatenate cs) (total ms)) by (apply den_concat; exists ms; split; [assumption|reflexivity]).
    rewrite sum64_ok by (eapply bls_ok_bound; eassumption). eexists. split; [reflexivity|]. split; [assumption|]. intros v Hv. apply den_concat in Hv as (vs & Hvs & ->). eapply F2_total; eassumption.
  - intros c n IH Hok. pose proof Hok as (Hb & Hc & Hn). destruct (IH Hc) as (m & E & Hm & Hmin). cbn [op_min]. rewrite E. cbn [bindr].
    assert (Hd : den (Repeat c n) (m * n)). { exists (repeat m (N.to_nat n)). rewrite repeat_length, N2Nat.id, total_repeat, N2Nat.id. split; [reflexivity|]. split; [apply Forall_repeat, Hm|reflexivity]. }
    unfold mul64. rewrite chk64_ok by (apply Hb, Hd). eexists. split; [reflexivity|]. split; [assumption|]. intros v (vs & <- & HF & ->). apply total_bound_low. eapply Forall_impl; [|exact HF]. assumption.
  - intros c n _ _. exists 0. split; [reflexivity|]. split; [|intros; lia]. exists []. split; [cbn [length]; lia|]. split; [constructor|reflexivity].
  - intros cs IH Hok. destruct (bls_ok_children cs (or_intror Hok)) as (Hne & Hcs). pose proof (Forall_mp _ _ _ IH Hcs) as H. apply mapM_Forall2 in H as (ms & E & HF).
    cbn [op_min]. rewrite E. cbn [bindr]. destruct ms as [|x ms]; [inversion HF; subst; contradiction|]. cbn [list_min]. eexists. split; [reflexivity|].
    destruct (fold_min_spec ms x) as (G1 & G2). split.
    + apply den_union, Exists_exists. destruct (Forall2_In_r _ _ _ _ HF G1) as (c & Hc & Hm & _). exists c. split; assumption.
    + intros v Hv. apply den_union, Exists_exists in Hv as (c & Hc & Hv). destruct (Forall2_In_l _ _ _ _ HF Hc) as (m & Hm & _ & Hmin). specialize (G2 m Hm). specialize (Hmin v Hv). lia.
Qed.

Theorem op_max_spec : forall o, bls_ok o -> exists m, op_max o = Ok m /\ is_max o m.
Proof.
  apply (op_rect' (fun o => bls_ok o -> exists m, op_max o = Ok m /\ is_max o m)).
  - intros l (_ & Hs & Hn). apply set_max_spec; assumption.
  - intros c a IH Hok. pose proof Hok as (Hb & Hc & Ha). destruct (IH Hc) as (m & E & Hm & Hmax). cbn [op_max]. rewrite E. cbn [bindr].
    assert (Hd : den (Padding c a) (alup a m)) by (exists m; split; [assumption|apply alup_padded; lia]).
    rewrite align_up_ok by (try lia; apply Hb, Hd). eexists. split; [reflexivity|]. split; [assumption|]. intros v (u & Hu & Hp). eapply padded_mono; [|exact Hp| |apply Hmax, Hu]; [lia|apply alup_padded; lia].
  - intros cs IH Hok. destruct (bls_ok_children cs (or_introl Hok)) as (_ & Hcs). pose proof (Forall_mp _ _ _ IH Hcs) as H. apply mapM_Forall2 in H as (ms & E & HF). apply Forall2_and in HF as (H1 & H2).
    cbn [op_max]. rewrite E. cbn [bindr]. assert (Hd : den (Concatenate cs) (total ms)) by (apply den_concat; exists ms; split; [assumption|reflexivity]).
    rewrite sum64_ok by (eapply bls_ok_bound; eassumption). eexists. split; [reflexivity|]. split; [assumption|]. intros v Hv. apply den_concat in Hv as (vs & Hvs & ->). eapply F2_total_hi; eassumption.
  - intros c n IH Hok. pose proof Hok as (Hb & Hc & Hn). destruct (IH Hc) as (m & E & Hm & Hmax). cbn [op_max]. rewrite E. cbn [bindr].
    assert (Hd : den (Repeat c n) (m * n)). { exists (repeat m (N.to_nat n)). rewrite repeat_length, N2Nat.id, total_repeat, N2Nat.id. split; [reflexivity|]. split; [apply Forall_repeat, Hm|reflexivity]. }
    unfold mul64. rewrite chk64_ok by (apply Hb, Hd). eexists. split; [reflexivity|]. split; [assumption|]. intros v (vs & <- & HF & ->). apply total_bound. eapply Forall_impl; [|exact HF]. assumption.
  - intros c n IH Hok. pose proof Hok as (Hb & Hc & Hn). destruct (IH Hc) as (m & E & Hm & Hmax). cbn [op_max]. rewrite E. cbn [bindr].
    assert (Hd : den (RangeRepeat c n) (m * n)). { exists (repeat m (N.to_nat n)). rewrite repeat_length, N2Nat.id, total_repeat, N2Nat.id. split; [reflexivity|]. split; [apply Forall_repeat, Hm|reflexivity]. }
    unfold mul64. rewrite chk64_ok by (apply Hb, Hd). eexists. split; [reflexivity|]. split; [assumption|]. intros v (vs & Hl & HF & ->).
    assert (total vs <= m * N.of_nat (length vs)) by (apply total_bound; eapply Forall_impl; [|exact HF]; assumption). nia.
  - intros cs IH Hok. destruct (bls_ok_children cs (or_intror Hok)) as (Hne & Hcs). pose proof (Forall_mp _ _ _ IH Hcs) as H. apply mapM_Forall2 in H as (ms & E & HF).
    cbn [op_max]. rewrite E. cbn [bindr]. destruct ms as [|x ms]; [inversion HF; subst; contradiction|]. cbn [list_max]. eexists. split; [reflexivity|].
    destruct (fold_max_spec ms x) as (G1 & G2). split.
    + apply den_union, Exists_exists. destruct (Forall2_In_r _ _ _ _ HF G1) as (c & Hc & Hm & _). exists c. split; assumption.
    + intros v Hv. apply den_union, Exists_exists in Hv as (c & Hc & Hv). destruct (Forall2_In_l _ _ _ _ HF Hc) as (m & Hm & _ & Hmin). specialize (G2 m Hm). specialize (Hmin v Hv). lia.
Qed.

(** ** Expansion *)

Lemma mapM_total o l : (forall vs, In vs l -> den o (total vs)) -> bls_ok o -> mapM sum64 l = Ok (map total l).
Proof. intros H Hok. apply mapM_ok. intros vs Hvs. apply sum64_ok. eapply bls_ok_bound; [eassumption|]. apply H, Hvs. Qed.

Lemma Forall2_comp cs : forall (ls : list (list N)) vs, Forall2 (fun c l => forall v, In v l <-> den c v) cs ls -> (Forall2 (fun l v => In v l) ls vs <-> Forall2 den cs vs).
Proof.
  intros ls vs H. revert vs. induction H as [|c l cs ls H1 _ IH]; intro vs; split; intro G; inversion G; subst; constructor; try (apply H1; assumption); try (apply IH; assumption).
Qed.

Theorem op_expand_spec : forall o, bls_ok o -> exists l, op_expand o = Ok l /\ is_set l /\ forall v, In v l <-> den o v.
Proof.
  apply (op_rect' (fun o => bls_ok o -> exists l, op_expand o = Ok l /\ is_set l /\ forall v, In v l <-> den o v)).
  - intros l (_ & Hs & _). exists l. split; [reflexivity|]. split; [assumption|]. intro v. reflexivity.
  - intros c a IH Hok. pose proof Hok as (Hb & Hc & Ha). destruct (IH Hc) as (l & E & Hs & Hl). cbn [op_expand]. rewrite E. cbn [bindr].
    rewrite (mapM_ok _ (alup a)). 2:{ intros u Hu. apply align_up_ok; [lia|]. apply Hb. exists u. split; [apply Hl, Hu|apply alup_padded; lia]. }
    cbn [bindr]. eexists. split; [reflexivity|]. split; [apply set_of_set|]. intro v. rewrite set_of_In, in_map_iff. split.
    + intros (u & <- & Hu). exists u. split; [apply Hl, Hu|apply alup_padded; lia].
    + intros (u & Hu & Hp). exists u. split; [|apply Hl, Hu]. eapply padded_unique; [|apply alup_padded|exact Hp]; lia.
  - intros cs IH Hok. destruct (bls_ok_children cs (or_introl Hok)) as (_ & Hcs). pose proof (Forall_mp _ _ _ IH Hcs) as H.
    apply (mapM_Forall2 _ _ (fun c l => is_set l /\ forall v, In v l <-> den c v)) in H as (ls & E & HF). apply Forall2_and in HF as (_ & H2).
    cbn [op_expand]. rewrite E. cbn [bindr].
    assert (Hden : forall vs, In vs (cartesian ls) <-> Forall2 den cs vs) by (intro vs; rewrite cartesian_In; apply Forall2_comp, H2).
    rewrite (mapM_total (Concatenate cs)); [|intros vs Hvs; apply den_concat; exists vs; split; [apply Hden, Hvs|reflexivity]|assumption]. cbn [bindr].
    eexists. split; [reflexivity|]. split; [apply set_of_set|]. intro v. rewrite set_of_In, in_map_iff, den_concat. split.
    + intros (vs & <- & Hvs). exists vs. split; [apply Hden, Hvs|reflexivity].
    + intros (vs & Hvs & ->). exists vs. split; [reflexivity|apply Hden, Hvs].
  - intros c n IH Hok. pose proof Hok as (Hb & Hc & Hn). destruct (IH Hc) as (l & E & Hs & Hl). cbn [op_expand]. rewrite E. cbn [bindr].
    assert (Hin : forall vs, In vs (combos (N.to_nat n) l) -> den (Repeat c n) (total vs)).
    { intros vs Hvs. apply combos_In in Hvs as (H1 & H2). exists vs. split; [lia|]. split; [|reflexivity]. eapply Forall_impl; [|exact H2]. intro. apply Hl. }
    rewrite (mapM_total (Repeat c n)) by assumption. cbn [bindr]. eexists. split; [reflexivity|]. split; [apply set_of_set|]. intro v. rewrite set_of_In, in_map_iff. split.
    + intros (vs & <- & Hvs). apply Hin, Hvs.
    + intros (vs & Hlen & HF & ->). destruct (combos_complete l (N.to_nat n) vs ltac:(lia)) as (ws & W1 & W2); [eapply Forall_impl; [|exact HF]; intro; apply Hl|].
      exists ws. split; [apply total_perm, W2|assumption].
  - intros c n IH Hok. pose proof Hok as (Hb & Hc & Hn). destruct (IH Hc) as (l & E & Hs & Hl). cbn [op_expand]. rewrite E. cbn [bindr].
    assert (Hin : forall vs, In vs (flat_map (fun k => combos k l) (seq 0 (S (N.to_nat n)))) -> den (RangeRepeat c n) (total vs)).
    { intros vs Hvs. apply in_flat_map in Hvs as (k & Hk & Hvs). apply in_seq in Hk. apply combos_In in Hvs as (H1 & H2). exists vs. split; [lia|]. split; [|reflexivity]. eapply Forall_impl; [|exact H2]. intro. apply Hl. }
    rewrite (mapM_total (RangeRepeat c n)) by assumption. cbn [bindr]. eexists. split; [reflexivity|]. split; [apply set_of_set|]. intro v. rewrite set_of_In, in_map_iff. split.
    + intros (vs & <- & Hvs). apply Hin, Hvs.
    + intros (vs & Hlen & HF & ->). destruct (combos_complete l (length vs) vs eq_refl) as (ws & W1 & W2); [eapply Forall_impl; [|exact HF]; intro; apply Hl|].
      exists ws. split; [apply total_perm, W2|]. apply in_flat_map. exists (length vs). split; [apply in_seq; lia|assumption].
  - intros cs IH Hok. destruct (bls_ok_children cs (or_intror Hok)) as (_ & Hcs). pose proof (Forall_mp _ _ _ IH Hcs) as H.
    apply (mapM_Forall2 _ _ (fun c l => is_set l /\ forall v, In v l <-> den c v)) in H as (ls & E & HF). apply Forall2_and in HF as (_ & H2).
    cbn [op_expand]. rewrite E. cbn [bindr]. eexists. split; [reflexivity|]. split; [apply set_of_set|]. intro v. rewrite set_of_In, in_concat, den_union, Exists_exists. split.
    + intros (l & Hl & Hv). destruct (Forall2_In_r _ _ _ _ H2 Hl) as (c & Hc & Hden). exists c. split; [assumption|apply Hden, Hv].
    + intros (c & Hc & Hv). destruct (Forall2_In_l _ _ _ _ H2 Hc) as (l & Hl & Hden). exists l. split; [assumption|apply Hden, Hv].
Qed.

Lemma structural_equal_eq : forall a b, structural_equal a b = true -> a = b.
Proof.
  assert (Hall : forall l1 l2, Forall (fun a => forall b, structural_equal a b = true -> a = b) l1 -> (length l1 =? length l2)%nat = true ->
    (fix all (l1 l2 : list operator) : bool := match l1, l2 with x :: r1, y :: r2 => structural_equal x y && all r1 r2 | _, _ => true end) l1 l2 = true -> l1 = l2).
  { intros l1 l2 H. revert l2. induction H as [|x l1 Hx _ IH]; intros [|y l2] Hl Hs; try discriminate; [reflexivity|]. apply andb_true_iff in Hs as (H1 & H2). f_equal; [apply Hx, H1|]. apply IH; assumption. }
  apply (op_rect' (fun a => forall b, structural_equal a b = true -> a = b)).
  - intros l [l'| | | | |] H; try discriminate. f_equal. apply set_eqb_eq, H.
  - intros c a IH [|c' a'| | | |] H; try discriminate. cbn [structural_equal] in H. apply andb_true_iff in H as (H1 & H2). apply N.eqb_eq in H1. f_equal; [apply IH, H2|assumption].
  - intros cs IH [| |cs'| | |] H; try discriminate. cbn [structural_equal] in H. apply andb_true_iff in H as (H1 & H2). f_equal. apply Hall; assumption.
  - intros c n IH [| | |c' n'| |] H; try discriminate. cbn [structural_equal] in H. apply andb_true_iff in H as (H1 & H2). apply N.eqb_eq in H1. f_equal; [apply IH, H2|assumption].
  - intros c n IH [| | | |c' n'|] H; try discriminate. cbn [structural_equal] in H. apply andb_true_iff in H as (H1 & H2). apply N.eqb_eq in H1. f_equal; [apply IH, H2|assumption].
  - intros cs IH [| | | | |cs'] H; try discriminate. cbn [structural_equal] in H. apply andb_true_iff in H as (H1 & H2). f_equal. apply Hall; assumption.
Qed.

(** ** Sums of residues *)

Lemma find_dup (p : nat -> N) n : forall a, ~ NoDup (map p (seq a n)) -> exists i j, (a <= i < j)%nat /\ (j < a + n)%nat /\ p i = p j.
Proof.
  induction n as [|n IH]; intros a H; cbn [seq map] in H; [exfalso; apply H; constructor|].
  destruct (in_dec N.eq_dec (p a) (map p (seq (S a) n))) as [Hin|Hnin].
  - apply in_map_iff in Hin as (j & E & Hj). apply in_seq in Hj. exists a, j. split; [lia|]. split; [lia|congruence].
  - destruct (IH (S a)) as (i & j & H1 & H2 & H3). { intro Hnd. apply H. constructor; assumption. } exists i, j. split; [lia|]. split; [lia|assumption].
Qed.

(** Among [d] or more numbers there is a non-empty block whose sum is a multiple of [d]. *)
Lemma zero_block d l : d <> 0 -> d <= N.of_nat (length l) -> exists a b c, l = a ++ b ++ c /\ b <> [] /\ total b mod d = 0.
Proof.
  intros Hd Hl. set (p := fun i => total (firstn i l) mod d). destruct (find_dup p (S (length l)) 0) as (i & j & Hij & Hj & E).
  - intro Hnd. assert (Hle : (length (map p (seq 0 (S (length l)))) <= length (map N.of_nat (seq 0 (N.to_nat d))))%nat).
    { apply NoDup_incl_length; [assumption|]. intros x Hx. apply in_map_iff in Hx as (k & <- & _). unfold p. apply in_map_iff. exists (N.to_nat (total (firstn k l) mod d)). rewrite N2Nat.id. split; [reflexivity|].
      apply in_seq. pose proof (N.mod_lt (total (firstn k l)) d Hd). lia. }
    rewrite !map_length, !seq_length in Hle. lia.
  - exists (firstn i l), (firstn (j - i) (skipn i l)), (skipn j l).
    assert (Ej : firstn j l = firstn i l ++ firstn (j - i) (skipn i l)).
    { rewrite <- (firstn_skipn i (firstn j l)) at 1. rewrite firstn_firstn, Nat.min_l by lia. f_equal. rewrite skipn_firstn_comm. reflexivity. }
    split; [rewrite app_assoc, <- Ej; symmetry; apply firstn_skipn|]. split.
    + intro Hn. apply (f_equal (@length N)) in Hn. rewrite firstn_length, skipn_length in Hn. cbn [length] in Hn. lia.
    + unfold p in E. rewrite Ej, total_app in E. symmetry in E. apply add_mod_cancel in E; assumption.
Qed.

(** Any list can be cut to fewer than [d] of its elements with the same sum of weights modulo [d]. *)
Lemma reduce (f : N -> N) (M : N -> Prop) d : d <> 0 -> forall n vs, (length vs <= n)%nat -> Forall M vs ->
  exists ws, Forall M ws /\ N.of_nat (length ws) < d /\ (length ws <= length vs)%nat /\ total (map f ws) mod d = total (map f vs) mod d.
Proof.
  intro Hd. induction n as [|n IH]; intros vs Hn HM.
  - exists vs. destruct vs; [|cbn [length] in Hn; lia]. split; [assumption|]. split; [cbn [length]; lia|]. split; [lia|reflexivity].
  - destruct (N.lt_ge_cases (N.of_nat (length vs)) d) as [Hlt|Hge].
    + exists vs. split; [assumption|]. split; [assumption|]. split; [lia|reflexivity].
    + destruct (zero_block d (map f vs) Hd) as (a & b & c & E & Hb & H0); [rewrite map_length; assumption|].
      assert (Es : exists va vb vc, vs = va ++ vb ++ vc /\ map f va = a /\ map f vb = b /\ map f vc = c).
      { apply map_eq_app in E as (va & r & -> & Ea & Er). apply map_eq_app in Er as (vb & vc & -> & Eb & Ec). exists va, vb, vc. split; [reflexivity|]. split; [assumption|]. split; assumption. }
      destruct Es as (va & vb & vc & -> & Ea & Eb & Ec). apply Forall_app in HM as (Ma & HM). apply Forall_app in HM as (Mb & Mc).
      assert (Hlb : (0 < length vb)%nat) by (destruct vb; [subst b; cbn [map] in Hb; contradiction|cbn [length]; lia]).
      rewrite !app_length in Hn. destruct (IH (va ++ vc)) as (ws & W1 & W2 & W3 & W4); [rewrite app_length; lia|apply Forall_app; split; assumption|].
      exists ws. split; [assumption|]. split; [assumption|]. split; [rewrite !app_length in *; lia|]. rewrite W4, !map_app, !total_app, Eb.
      rewrite (N.add_comm (total b)), N.add_assoc. rewrite (N.add_mod (_ + _) (total b)) by assumption. rewrite H0, N.add_0_r, N.mod_mod by assumption. reflexivity.
Qed.

Lemma mod_add_cancel d x y t : x < d -> y < d -> t < d -> (x + t) mod d = (y + t) mod d -> x = y.
Proof.
  intros Hx Hy Ht H. assert (Hs : forall x, x < d -> (x + t) mod d = if x + t <? d then x + t else x + t - d).
  { intros z Hz. destruct (N.ltb_spec (z + t) d); [apply N.mod_small; assumption|]. symmetry. clear H. apply (N.mod_unique _ _ 1); lia. }
  rewrite !Hs in H by assumption. destruct (N.ltb_spec (x + t) d), (N.ltb_spec (y + t) d); lia.
Qed.

(** Sums of [K] elements and of [k] elements of a set leave the same remainders if [K] and [k] do and [k + 1 >= d]. *)
Lemma resum (M : N -> Prop) d m0 K k vs : d <> 0 -> M m0 -> d <= N.of_nat k + 1 -> N.of_nat K mod d = N.of_nat k mod d -> length vs = K -> Forall M vs ->
  exists ws, length ws = k /\ Forall M ws /\ total ws mod d = total vs mod d.
Proof.
  intros Hd Hm Hk HK Hlen HM. set (c := d - m0 mod d). pose proof (N.mod_lt m0 d Hd) as Hm0.
  assert (Hc : (m0 + c) mod d = 0).
  { unfold c. rewrite N.add_mod by assumption. replace ((d - m0 mod d) mod d) with ((d - m0 mod d) mod d) by reflexivity. rewrite <- N.add_mod by assumption.
    pose proof (N.div_mod m0 d Hd) as E. replace (m0 + (d - m0 mod d)) with ((m0 / d + 1) * d) by lia. apply N.mod_mul. assumption. }
  destruct (reduce (fun v => v + c) M d Hd (length vs) vs (le_n _) HM) as (ws & W1 & W2 & W3 & W4).
  exists (ws ++ repeat m0 (k - length ws)). split; [rewrite app_length, repeat_length; lia|]. split; [apply Forall_app; split; [assumption|apply Forall_repeat, Hm]|].
  assert (Ht : forall l, total (map (fun v => v + c) l) = total l + c * N.of_nat (length l)).
  { induction l as [|x l IH]; [unfold total; cbn [map fold_right length]; lia|]. cbn [map]. rewrite !total_cons, IH. cbn [length]. lia. }
  set (us := ws ++ repeat m0 (k - length ws)).
  assert (Hu : total (map (fun v => v + c) us) mod d = total (map (fun v => v + c) vs) mod d).
  { rewrite <- W4. unfold us. rewrite map_app, total_app. rewrite N.add_mod by assumption.
    assert (E0 : total (map (fun v => v + c) (repeat m0 (k - length ws))) mod d = 0).
    { assert (Em : map (fun v => v + c) (repeat m0 (k - length ws)) = repeat (m0 + c) (k - length ws)) by (generalize (k - length ws)%nat; induction n as [|n IHn]; [reflexivity|cbn [repeat map]; rewrite IHn; reflexivity]).
      rewrite Em, total_repeat, N.mul_mod, Hc by assumption. rewrite N.mul_0_l. apply N.mod_0_l. assumption. }
    rewrite E0, N.add_0_r, N.mod_mod by assumption. reflexivity. }
  rewrite !Ht in Hu. assert (Hlu : length us = k) by (unfold us; rewrite app_length, repeat_length; clear - W2 Hk; lia). rewrite Hlu, Hlen in Hu.
  (* cancel c * K against c * k *)
  assert (Hck : (c * N.of_nat K) mod d = (c * N.of_nat k) mod d) by (rewrite N.mul_mod, HK, <- N.mul_mod by assumption; reflexivity).
  rewrite (N.add_mod (total us)), (N.add_mod (total vs)), Hck in Hu by assumption.
  apply (mod_add_cancel d _ _ _ (N.mod_lt _ d Hd) (N.mod_lt _ d Hd) (N.mod_lt _ d Hd) Hu).
Qed.

Lemma equivalent_count_spec n d : 0 < d <= 2 ^ 31 -> n < 2 ^ 64 ->
  exists e, equivalent_count n d = Ok e /\ (e = n \/ d <= e /\ e <= n) /\ e < 2 * d + (if n <? 2 * d then 0 else 0) /\ n mod d = e mod d.
Proof.
  intros Hd Hn. unfold equivalent_count, rem64. destruct (N.eqb_spec d 0); [lia|]. cbn [bindr]. pose proof (N.mod_lt n d ltac:(lia)) as Hm. change (2 ^ 31) with 2147483648 in Hd.
  unfold add64. rewrite chk64_ok by (change (2 ^ 64) with 18446744073709551616; lia). cbn [bindr]. cbv zeta.
  assert (E : N.min n (d + n mod d) mod d = n mod d).
  { destruct (N.min_spec n (d + n mod d)) as [(_ & ->)|(_ & ->)]; [reflexivity|]. rewrite <- N.add_mod_idemp_l, N.mod_same, N.add_0_l, N.mod_mod by lia. reflexivity. }
  rewrite E, N.eqb_refl. eexists. split; [reflexivity|]. split; [|split; [destruct (n <? 2 * d); lia|symmetry; assumption]]. lia.
Qed.

(** ** Remainders *)

(** [l] is the set of the remainders modulo [d] of the elements of [o]. *)
Definition rem_set (o : operator) (d : N) (l : list N) : Prop := is_set l /\ forall r, In r l <-> exists v, den o v /\ r = v mod d.

Lemma rem_lt o d l : 0 < d -> rem_set o d l -> forall r, In r l -> r < d.
Proof. intros Hd (_ & H) r Hr. apply H in Hr as (v & _ & ->). apply N.mod_lt. lia. Qed.

Lemma total_mod_map d vs : d <> 0 -> total (map (fun v => v mod d) vs) mod d = total vs mod d.
Proof.
  intro Hd. induction vs as [|v vs IH]; [reflexivity|]. cbn [map]. rewrite !total_cons. rewrite N.add_mod, IH, N.mod_mod, <- N.add_mod by assumption. reflexivity.
Qed.
Lemma sum_rem_ok d vs : d <> 0 -> total vs < 2 ^ 64 -> sum_rem d vs = Ok (total vs mod d).
Proof. intros Hd H. unfold sum_rem. rewrite sum64_ok by assumption. cbn [bindr]. unfold rem64. destruct (N.eqb_spec d 0); [contradiction|reflexivity]. Qed.

Lemma den_inhabited o : bls_ok o -> exists v, den o v.
Proof. intro H. destruct (op_min_spec o H) as (m & _ & Hm & _). exists m. assumption. Qed.

(** lists of residues and lists of elements *)
Lemma lift_residues o d l vs : rem_set o d l -> Forall (fun r => In r l) vs -> exists us, Forall (den o) us /\ map (fun u => u mod d) us = vs.
Proof.
  intros (_ & H). induction 1 as [|r vs Hr _ (us & H1 & H2)]; [exists []; split; [constructor|reflexivity]|].
  apply H in Hr as (u & Hu & ->). exists (u :: us). split; [constructor; assumption|cbn [map]; congruence].
Qed.
Lemma residues_in o d l us : rem_set o d l -> Forall (den o) us -> Forall (fun r => In r l) (map (fun u => u mod d) us).
Proof. intros (_ & H) HF. apply Forall_map. eapply Forall_impl; [|exact HF]. intros u Hu. apply H. exists u. split; [assumption|reflexivity]. Qed.

Lemma small_residues d l vs n : 0 < d <= 2 ^ 31 -> Forall (fun r => r < d) vs -> N.of_nat (length vs) <= n -> n <= 2 ^ 32 -> total vs < 2 ^ 64 \/ l = @nil N.
Proof.
  intros Hd HF Hlen Hn. left. assert (H : total vs <= (d - 1) * N.of_nat (length vs)) by (apply total_bound; eapply Forall_impl; [|exact HF]; cbv beta; intros; lia).
  change (2 ^ 31) with 2147483648 in *. change (2 ^ 32) with 4294967296 in *. change (2 ^ 64) with 18446744073709551616. nia.
Qed.

Theorem op_modulo_spec d : 0 < d <= 2 ^ 31 -> forall o, bls_ok o -> bls_small o -> compatible d o -> exists l, op_modulo o d = Ok l /\ rem_set o d l.
Proof.
  intro Hd. assert (Hd0 : d <> 0) by lia.
  apply (op_rect' (fun o => bls_ok o -> bls_small o -> compatible d o -> exists l, op_modulo o d = Ok l /\ rem_set o d l)).
  - intros l (_ & Hs & Hn) _ _. cbn [op_modulo]. rewrite (mapM_ok _ (fun v => v mod d)) by (intros; unfold rem64; destruct (N.eqb_spec d 0); [contradiction|reflexivity]). cbn [bindr].
    eexists. split; [reflexivity|]. split; [apply set_of_set|]. intro r. rewrite set_of_In, in_map_iff. cbn [den]. split; intros (v & H1 & H2); exists v; split; congruence.
  - intros c a IH Hok Hsm (Hcc & Hdiv). pose proof Hok as (Hb & Hc & Ha). destruct (IH Hc Hsm Hcc) as (l & E & Hl). destruct (op_max_spec _ Hok) as (mx & Emx & _ & Hmx).
    cbn [op_modulo]. rewrite Emx. cbn [bindr].
    assert (Hg : N.gcd a d <> 0) by (intro Hg; apply N.gcd_eq_0_r in Hg; contradiction). assert (Hl2 : exists lcm, lcm64 a d = Ok lcm /\ d <= lcm).
    { unfold lcm64. destruct (N.eqb_spec (N.gcd a d) 0); [contradiction|]. destruct (N.gcd_divide_l a d) as (x & Ex). destruct (N.gcd_divide_r a d) as (y & Ey).
      set (g := N.gcd a d) in *. assert (Edg : d / g = y) by (rewrite Ey at 1; apply N.div_mul; assumption). rewrite Edg. unfold mul64.
      change (2 ^ 31) with 2147483648 in Hd. change (2 ^ 32) with 4294967296 in Ha. rewrite chk64_ok by (change (2 ^ 64) with 18446744073709551616; nia). eexists. split; [reflexivity|].
      assert (Hga : g <= a) by (apply N.divide_pos_le; [lia|exists x; assumption]). clear - Ey Hga. rewrite Ey at 1. rewrite (N.mul_comm a). apply N.mul_le_mono_l. assumption. }
    destruct Hl2 as (lcm & El & Hlcm). rewrite El. cbn [bindr]. rewrite E. cbn [bindr].
    rewrite (mapM_ok _ (fun r => alup a r mod d)).
    2:{ intros r Hr. pose proof (rem_lt c d l ltac:(lia) Hl r Hr) as Hlt. apply Hl in Hr as (u & Hu & ->).
        assert (Hdu : den (Padding c a) (alup a u)) by (exists u; split; [assumption|apply alup_padded; lia]). specialize (Hmx _ Hdu). destruct (alup_padded a u ltac:(lia)) as (P1 & _).
        pose proof (N.mod_le u d Hd0). destruct (N.leb_spec (u mod d) mx); [|lia]. destruct (N.ltb_spec (u mod d) lcm); [|lia]. cbn [andb].
        rewrite align_up_ok; [cbn [bindr]; unfold rem64; destruct (N.eqb_spec d 0); [contradiction|reflexivity]|lia|].
        destruct (alup_padded a (u mod d) ltac:(lia)) as (_ & P2 & _). change (2 ^ 31) with 2147483648 in Hd. change (2 ^ 32) with 4294967296 in Ha. change (2 ^ 64) with 18446744073709551616. lia. }
    cbn [bindr]. eexists. split; [reflexivity|]. split; [apply set_of_set|]. intro r. rewrite set_of_In, in_map_iff. split.
    + intros (x & <- & Hx). apply Hl in Hx as (u & Hu & ->). exists (alup a u). split; [exists u; split; [assumption|apply alup_padded; lia]|]. apply alup_mod; (assumption || lia).
    + intros (v & (u & Hu & Hp) & ->). exists (u mod d). split; [|apply Hl; exists u; split; [assumption|reflexivity]].
      rewrite alup_mod by (assumption || lia). f_equal. eapply padded_unique; [|apply alup_padded|exact Hp]; lia.
  - intros cs IH Hok (Hlen & Hsm) Hcomp. destruct (bls_ok_children cs (or_introl Hok)) as (_ & Hcs). apply all_iff in Hsm. apply (all_iff (compatible d)) in Hcomp.
    assert (H : Forall (fun c => exists l, op_modulo c d = Ok l /\ rem_set c d l) cs).
    { rewrite Forall_forall in *. intros c Hc. apply IH; auto. }
    apply mapM_Forall2 in H as (ls & E & HF). cbn [op_modulo]. rewrite E. cbn [bindr].
    assert (Hvs : forall vs, In vs (cartesian ls) <-> exists us, Forall2 den cs us /\ map (fun u => u mod d) us = vs).
    { intro vs. rewrite cartesian_In. clear - HF. revert vs. induction HF as [|c l cs ls H1 _ IH]; intro vs.
      - split; [intro H; inversion H; exists []; split; [constructor|reflexivity]|]. intros (us & H & <-). inversion H. constructor.
      - split.
        + intro H. inversion H; subst. apply IH in H5 as (us & U1 & U2). apply H1 in H3 as (u & U3 & U4). exists (u :: us). split; [constructor; assumption|]. cbn [map]. congruence.
        + intros (us & H & <-). inversion H; subst. cbn [map]. constructor; [apply H1; eexists; split; [eassumption|reflexivity]|]. apply IH. eexists. split; [eassumption|reflexivity]. }
    assert (Hlens : forall us, Forall2 den cs us -> length us = length cs) by (clear; induction 1; cbn [length]; congruence).
    rewrite (mapM_ok _ (fun vs => total vs mod d)).
    2:{ intros vs Hin. apply Hvs in Hin as (us & U1 & U2). apply sum_rem_ok; [assumption|]. destruct (small_residues d [0] vs (2 ^ 32)) as [|]; [lia| | |lia|assumption|discriminate].
        - subst vs. apply Forall_map. apply Forall_forall. intros. apply N.mod_lt. assumption.
        - subst vs. rewrite map_length, (Hlens us U1). lia. }
    cbn [bindr]. eexists. split; [reflexivity|]. split; [apply set_of_set|]. intro r. rewrite set_of_In, in_map_iff. split.
    + intros (vs & <- & Hin). apply Hvs in Hin as (us & U1 & <-). exists (total us). split; [apply den_concat; exists us; split; [assumption|reflexivity]|]. apply total_mod_map. assumption.
    + intros (v & Hv & ->). apply den_concat in Hv as (us & U1 & ->). exists (map (fun u => u mod d) us). split; [apply total_mod_map; assumption|]. apply Hvs. exists us. split; [assumption|reflexivity].
  - intros c n IH Hok Hsm Hcomp. pose proof Hok as (Hb & Hc & Hn). destruct (IH Hc Hsm Hcomp) as (l & E & Hl). destruct (equivalent_count_spec n d Hd Hn) as (e & Ee & He1 & He2 & He3).
    assert (He2' : e < 2 * d) by (destruct (n <? 2 * d); lia). cbn [op_modulo]. rewrite Ee. cbn [bindr]. rewrite E. cbn [bindr].
    assert (Hlt : forall k vs, In vs (combos k l) -> (N.of_nat k < 2 * d) -> total vs < 2 ^ 64).
    { intros k vs Hin Hk. apply combos_In in Hin as (L1 & L2). destruct (small_residues d [0] vs (2 ^ 32)) as [|]; [lia| | |lia|assumption|discriminate].
      - eapply Forall_impl; [|exact L2]. cbv beta. intros r Hr. apply (rem_lt c d l ltac:(lia) Hl r Hr).
      - change (2 ^ 31) with 2147483648 in Hd. change (2 ^ 32) with 4294967296. lia. }
    rewrite (mapM_ok _ (fun vs => total vs mod d)) by (intros vs Hin; apply sum_rem_ok; [assumption|]; apply (Hlt _ _ Hin); lia).
    cbn [bindr]. eexists. split; [reflexivity|]. split; [apply set_of_set|]. intro r. rewrite set_of_In, in_map_iff.
    destruct (den_inhabited c Hc) as (w0 & Hw0). assert (Hm0 : In (w0 mod d) l) by (apply Hl; exists w0; split; [assumption|reflexivity]).
    split.
    + intros (vs & <- & Hin). apply combos_In in Hin as (L1 & L2).
      assert (Hx : exists us, length us = N.to_nat n /\ Forall (fun r => In r l) us /\ total us mod d = total vs mod d).
      { destruct He1 as [->|(He1 & He4)]; [exists vs; split; [assumption|split; [assumption|reflexivity]]|].
        apply (resum (fun r => In r l) d (w0 mod d) (N.to_nat e)); try assumption; rewrite ?N2Nat.id; try lia. }
      destruct Hx as (us & X1 & X2 & X3). destruct (lift_residues c d l us Hl X2) as (ws & Y1 & Y2). exists (total ws). split.
      * exists ws. split; [apply (f_equal (@length N)) in Y2; rewrite map_length in Y2; lia|]. split; [assumption|reflexivity].
      * rewrite <- X3, <- Y2. apply total_mod_map. assumption.
    + intros (v & (us & U1 & U2 & ->) & ->). pose proof (residues_in c d l us Hl U2) as HR.
      assert (Hx : exists ws, length ws = N.to_nat e /\ Forall (fun r => In r l) ws /\ total ws mod d = total (map (fun u => u mod d) us) mod d).
      { destruct He1 as [->|(He1 & He4)]; [exists (map (fun u => u mod d) us); split; [rewrite map_length; lia|split; [assumption|reflexivity]]|].
        apply (resum (fun r => In r l) d (w0 mod d) (N.to_nat n)); try assumption; rewrite ?N2Nat.id, ?map_length; try lia. }
      destruct Hx as (ws & X1 & X2 & X3). destruct (combos_complete l (N.to_nat e) ws X1 X2) as (zs & Z1 & Z2). exists zs. split; [|assumption].
      rewrite (total_perm _ _ Z2), X3. apply total_mod_map. assumption.
  - intros c n IH Hok Hsm Hcomp. pose proof Hok as (Hb & Hc & Hn). destruct (IH Hc Hsm Hcomp) as (l & E & Hl). destruct (equivalent_count_spec n d Hd Hn) as (e & Ee & He1 & He2 & He3).
    assert (He2' : e < 2 * d) by (destruct (n <? 2 * d); lia). cbn [op_modulo]. rewrite E. cbn [bindr]. rewrite Ee. cbn [bindr].
    rewrite (mapM_ok _ (fun vs => total vs mod d)).
    2:{ intros vs Hin. apply in_flat_map in Hin as (k & Hk & Hin). apply in_seq in Hk. apply sum_rem_ok; [assumption|]. apply combos_In in Hin as (L1 & L2).
        destruct (small_residues d [0] vs (2 ^ 32)) as [|]; [lia| | |lia|assumption|discriminate].
        - eapply Forall_impl; [|exact L2]. cbv beta. intros r Hr. apply (rem_lt c d l ltac:(lia) Hl r Hr).
        - change (2 ^ 31) with 2147483648 in Hd. change (2 ^ 32) with 4294967296. lia. }
    cbn [bindr]. eexists. split; [reflexivity|]. split; [apply set_of_set|]. intro r. rewrite set_of_In, in_map_iff. split.
    + intros (vs & <- & Hin). apply in_flat_map in Hin as (k & Hk & Hin). apply in_seq in Hk. apply combos_In in Hin as (L1 & L2).
      destruct (lift_residues c d l vs Hl L2) as (ws & Y1 & Y2). exists (total ws). split.
      * exists ws. split; [apply (f_equal (@length N)) in Y2; rewrite map_length in Y2; lia|]. split; [assumption|reflexivity].
      * rewrite <- Y2. apply total_mod_map. assumption.
    + intros (v & (us & U1 & U2 & ->) & ->). pose proof (residues_in c d l us Hl U2) as HR.
      assert (Hx : exists ws, (length ws <= N.to_nat e)%nat /\ Forall (fun r => In r l) ws /\ total ws mod d = total (map (fun u => u mod d) us) mod d).
      { destruct He1 as [->|(He1 & He4)]; [exists (map (fun u => u mod d) us); split; [rewrite map_length; lia|split; [assumption|reflexivity]]|].
        destruct (reduce (fun x => x) (fun r => In r l) d Hd0 _ _ (le_n _) HR) as (ws & W1 & W2 & W3 & W4). exists ws. split; [lia|]. split; [assumption|]. rewrite !map_id in W4. assumption. }
      destruct Hx as (ws & X1 & X2 & X3). destruct (combos_complete l (length ws) ws eq_refl X2) as (zs & Z1 & Z2). exists zs. split; [rewrite (total_perm _ _ Z2), X3; apply total_mod_map; assumption|].
      apply in_flat_map. exists (length ws). split; [apply in_seq; lia|assumption].
  - intros cs IH Hok (Hlen & Hsm) Hcomp. destruct (bls_ok_children cs (or_intror Hok)) as (_ & Hcs). apply all_iff in Hsm. apply (all_iff (compatible d)) in Hcomp.
    assert (H : Forall (fun c => exists l, op_modulo c d = Ok l /\ rem_set c d l) cs).
    { rewrite Forall_forall in *. intros c Hc. apply IH; auto. }
    apply mapM_Forall2 in H as (ls & E & HF). cbn [op_modulo]. rewrite E. cbn [bindr]. eexists. split; [reflexivity|]. split; [apply set_of_set|]. intro r. rewrite set_of_In, in_concat. split.
    + intros (l & Hl & Hr). destruct (Forall2_In_r _ _ _ _ HF Hl) as (c & Hc & Hset). destruct Hset as (_ & Hset). pose proof (proj1 (Hset r) Hr) as (v & Hv & Er). exists v. split; [|assumption]. apply den_union, Exists_exists. exists c. split; assumption.
    + intros (v & Hv & ->). apply den_union, Exists_exists in Hv as (c & Hc & Hv). destruct (Forall2_In_l _ _ _ _ HF Hc) as (l & Hl & Hset). exists l. split; [assumption|]. destruct Hset as (_ & Hset). apply Hset. exists v. split; [assumption|reflexivity].
Qed.
