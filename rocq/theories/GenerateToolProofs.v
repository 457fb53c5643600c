(** Proofs for GenerateToolProps.v *)
From Verif Require Import Base GenerateToolModel GenerateToolSpec.
Open Scope N_scope.

(** ** Splitting *)
Lemma split_char_none c s : ~ In c s -> split_char c s = [s].
Proof. induction s as [|x s IH]; intro H; [reflexivity|]. cbn [split_char]. destruct (N.eqb_spec x c) as [->|_]; [destruct H; left; reflexivity|]. rewrite IH; [reflexivity|]. intro X. apply H. right. exact X. Qed.
Lemma split_char_first c s r : ~ In c s -> split_char c (s ++ c :: r) = s :: split_char c r.
Proof. induction s as [|x s IH]; intro H; cbn [app split_char]; [rewrite N.eqb_refl; reflexivity|]. destruct (N.eqb_spec x c) as [->|_]; [destruct H; left; reflexivity|]. rewrite IH; [reflexivity|]. intro X. apply H. right. exact X. Qed.
Lemma join_cons sep s r : r <> [] -> join sep (s :: r) = s ++ sep ++ join sep r.
Proof. destruct r; [intro H; destruct (H eq_refl)|reflexivity]. Qed.
Lemma split_char_join c ss : ss <> [] -> (forall s, In s ss -> ~ In c s) -> split_char c (join [c] ss) = ss.
Proof.
  induction ss as [|s ss IH]; intros Hn H; [destruct (Hn eq_refl)|]. destruct ss as [|s' ss]; [apply split_char_none, H; left; reflexivity|]. rewrite join_cons by discriminate. change ([c] ++ join [c] (s' :: ss)) with (c :: join [c] (s' :: ss)). rewrite split_char_first by (apply H; left; reflexivity). f_equal. apply IH; [discriminate|]. intros x X. apply H. right. exact X.
Qed.
Lemma split_char_right c t : split_char c t <> [] /\ t = join [c] (split_char c t) /\ forall s, In s (split_char c t) -> ~ In c s.
Proof.
  induction t as [|x t IH]; cbn [split_char]; [split; [discriminate|]; split; [reflexivity|]; intros s [<-|[] ] []|]. destruct IH as (H1 & H2 & H3). destruct (N.eqb_spec x c) as [->|Hx].
  - split; [discriminate|]. split; [rewrite join_cons by exact H1; cbn [app]; congruence|]. intros s [<-|S]; [intros []|apply H3, S].
  - destruct (split_char c t) as [|s ss]; [destruct (H1 eq_refl)|]. split; [discriminate|]. split; [destruct ss; cbn [join app] in *; congruence|]. intros s' [<-|S]; [intros [X|X]; [exact (Hx X)|apply (H3 s (or_introl eq_refl) X)]|apply H3; right; exact S].
Qed.

Lemma split_twice_step c x y r : split_twice c (x :: y :: r) = if (x =? c) && (y =? c) then [] :: split_twice c r else match split_twice c (y :: r) with s :: ss => (x :: s) :: ss | [] => [[x]] end.
Proof. reflexivity. Qed.
Lemma contains_tail x s t : contains s t -> contains (x :: s) t.
Proof. intros (a & b & ->). exists (x :: a), b. reflexivity. Qed.
Lemma contains_pair c s : contains (c :: c :: s) [c; c].
Proof. exists [], s. reflexivity. Qed.
Lemma split_twice_none c s : ~ contains s [c; c] -> split_twice c s = [s].
Proof.
  induction s as [|x s IH]; intro H; [reflexivity|]. destruct s as [|y s]; [reflexivity|]. rewrite split_twice_step. destruct ((x =? c) && (y =? c)) eqn:E; [exfalso; apply H; replace x with c by lia; replace y with c by lia; apply contains_pair|]. rewrite IH; [reflexivity|]. intro X. apply H, contains_tail, X.
Qed.
Lemma split_twice_first c s r : ~ contains s [c; c] -> (forall s', s <> s' ++ [c]) -> split_twice c (s ++ c :: c :: r) = s :: split_twice c r.
Proof.
  induction s as [|x s IH]; intros H He; cbn [app]; [rewrite split_twice_step, N.eqb_refl; reflexivity|]. assert (Hs : ~ contains s [c; c]) by (intro X; apply H, contains_tail, X).
  assert (E : split_twice c (s ++ c :: c :: r) = s :: split_twice c r) by (apply IH; [exact Hs|]; intros s' ->; apply (He (x :: s')); reflexivity).
  destruct s as [|y s]; cbn [app] in *.
  - rewrite split_twice_step. destruct (N.eqb_spec x c) as [->|_]; [destruct (He [] eq_refl)|]. cbn [andb]. rewrite E. reflexivity.
  - rewrite split_twice_step. destruct ((x =? c) && (y =? c)) eqn:Eb; [exfalso; apply H; replace x with c by lia; replace y with c by lia; apply contains_pair|]. rewrite E. reflexivity.
Qed.
Definition ends_right (c : N) (ss : list (list N)) : Prop := forall before s after, ss = before ++ s :: after -> after <> [] -> forall s', s <> s' ++ [c].
Lemma ends_tail c s ss : ends_right c (s :: ss) -> ends_right c ss.
Proof. intros H b x a -> Ha. apply (H (s :: b) x a eq_refl Ha). Qed.
Lemma split_twice_join c ss : ss <> [] -> (forall s, In s ss -> ~ contains s [c; c]) -> ends_right c ss -> split_twice c (join [c; c] ss) = ss.
Proof.
  induction ss as [|s ss IH]; intros Hn H He; [destruct (Hn eq_refl)|]. destruct ss as [|s' ss]; [apply split_twice_none, H; left; reflexivity|]. rewrite join_cons by discriminate. change ([c; c] ++ join [c; c] (s' :: ss)) with (c :: c :: join [c; c] (s' :: ss)). rewrite split_twice_first; [|apply H; left; reflexivity|apply (He [] s (s' :: ss) eq_refl); discriminate]. f_equal. apply IH; [discriminate| |apply (ends_tail c s), He]. intros x X. apply H. right. exact X.
Qed.
Lemma short_none c s : (length s < 2)%nat -> ~ contains s [c; c].
Proof. intros H (a & b & E). apply (f_equal (@length N)) in E. rewrite !app_length in E. cbn [length] in E. lia. Qed.
Lemma single_ends c s : ends_right c [s].
Proof. intros b x a E Ha. destruct b as [|? b]; [injection E as _ E; congruence|]. destruct b; discriminate E. Qed.
Lemma split_twice_head c y r s ss : split_twice c (y :: r) = s :: ss -> match s with [] => y = c | z :: _ => z = y end.
Proof.
  destruct r as [|z r]; [intro H; injection H as <- _; reflexivity|]. rewrite split_twice_step. destruct ((y =? c) && (z =? c)) eqn:E; [intro H; injection H as <- _; lia|]. destruct (split_twice c (z :: r)) as [|s' ss']; intro H; injection H as <- _; reflexivity.
Qed.
Lemma split_twice_right c n : forall t, (length t <= n)%nat ->
  split_twice c t <> [] /\ t = join [c; c] (split_twice c t) /\ (forall s, In s (split_twice c t) -> ~ contains s [c; c]) /\ ends_right c (split_twice c t).
Proof.
  induction n as [|n IH]; intros t Hl.
  - destruct t; [|cbn [length] in Hl; lia]. split; [discriminate|]. split; [reflexivity|]. split; [intros s [<-|[] ]; apply short_none; cbn; lia|apply single_ends].
  - destruct t as [|x [|y r] ].
    + split; [discriminate|]. split; [reflexivity|]. split; [intros s [<-|[] ]; apply short_none; cbn; lia|apply single_ends].
    + split; [discriminate|]. split; [reflexivity|]. split; [intros s [<-|[] ]; apply short_none; cbn; lia|apply single_ends].
    + cbn [length] in Hl. rewrite split_twice_step. destruct ((x =? c) && (y =? c)) eqn:E.
      * destruct (IH r ltac:(lia)) as (H1 & H2 & H3 & H4). split; [discriminate|]. split; [rewrite join_cons by exact H1; rewrite <- H2; cbn [app]; replace x with c by lia; replace y with c by lia; reflexivity|]. split; [intros s [<-|S]; [apply short_none; cbn; lia|apply H3, S]|].
        intros b s a Eb Ha s'. destruct b as [|b0 b]; [injection Eb as <- _; destruct s'; discriminate|]. injection Eb as _ Eb. apply (H4 b s a Eb Ha).
      * destruct (IH (y :: r) ltac:(cbn [length]; lia)) as (H1 & H2 & H3 & H4). pose proof (split_twice_head c y r) as Hh. destruct (split_twice c (y :: r)) as [|s ss]; [destruct (H1 eq_refl)|]. specialize (Hh s ss eq_refl). split; [discriminate|]. split; [destruct ss; cbn [join app] in *; congruence|]. split.
        -- intros s' [<-|S]; [|apply H3; right; exact S]. intros (a & b & Eq). destruct a as [|a0 a]; [cbn [app] in Eq; injection Eq as -> Eq; destruct s as [|z s]; [discriminate Eq|]; injection Eq as -> Eq; subst; rewrite !N.eqb_refl in E; discriminate E|]. injection Eq as _ Eq. apply (H3 s (or_introl eq_refl)). exists a, b. exact Eq.
        -- intros b s0 a Eb Ha s'. destruct b as [|b0 b].
           ++ injection Eb as <- <-. intro Eq. destruct s' as [|x' s']; cbn [app] in Eq; injection Eq as -> Eq.
              ** subst s. cbn beta iota in Hh. subst y. rewrite !N.eqb_refl in E. discriminate E.
              ** apply (H4 [] s ss eq_refl Ha s' Eq).
           ++ injection Eb as _ Eb. apply (H4 (s :: b) s0 a); [rewrite Eb; reflexivity|exact Ha].
Qed.

Lemma external_complete t p m : package_and_module t p m -> parse_external t = Some (External p m).
Proof.
  intros (a & b & -> & Ha & Hb & (P1 & -> & P2) & (M1 & -> & M2 & M3)). unfold parse_external. change ([44] ++ join [58; 58] m) with (44 :: join [58; 58] m). rewrite split_char_first by exact Ha. rewrite split_char_none by exact Hb. rewrite split_char_join by assumption. rewrite split_twice_join by assumption. reflexivity.
Qed.
Lemma external_sound t e : parse_external t = Some e -> exists u rest, package_and_module u (ext_package e) (ext_module e) /\ (t = u \/ t = u ++ [44] ++ rest).
Proof.
  unfold parse_external. destruct (split_char_right 44 t) as (H1 & H2 & H3). destruct (split_char 44 t) as [|a [|b r] ]; try discriminate. intro E. injection E as <-. cbn [ext_package ext_module].
  exists (a ++ [44] ++ b), (join [44] r). split.
  - exists a, b. split; [reflexivity|]. split; [apply H3; left; reflexivity|]. split; [apply H3; right; left; reflexivity|]. split; [exact (split_char_right 46 a)|]. destruct (split_twice_right 58 (length b) b (le_n _)) as (A & B & C & D). split; [exact A|]. split; [exact B|]. split; [exact C|exact D].
  - destruct r as [|x r]; [left; exact H2|right]. rewrite H2. rewrite join_cons by discriminate. rewrite join_cons by discriminate. rewrite !app_assoc. reflexivity.
Qed.

(** ** The output file *)
Definition all_of (w : writer) : list N := content (w_device w) ++ w_buffer w.
Lemma firstn_all_le {A} (l : list A) n : (length l <= n)%nat -> firstn n l = l.
Proof. intro H. apply firstn_all2, H. Qed.
(** [used w]: how much of the space there is on the device *)
Definition sized (space : nat) (w : writer) : Prop := (length (content (w_device w)) + room (w_device w))%nat = space.
Lemma flush_right space w : sized space w ->
  sized space (fst (flush w)) /\ all_of (fst (flush w)) = all_of w /\
  (snd (flush w) = true -> w_buffer (fst (flush w)) = []) /\ (snd (flush w) = false -> room (w_device (fst (flush w))) = 0%nat) /\
  ((length (all_of w) <= space)%nat -> snd (flush w) = true).
Proof.
  unfold sized, flush, dev_write, all_of. destruct w as (b & (c & r)). cbn [w_device w_buffer content room fst snd]. intro H. rewrite !app_length, firstn_length. split; [lia|]. split; [rewrite <- app_assoc, firstn_skipn; reflexivity|]. split; [intro E; apply skipn_all2; lia|]. split; [intro E; lia|]. intro E. lia.
Qed.
Lemma buf_write_right space w l : sized space w ->
  sized space (fst (buf_write w l)) /\
  (snd (buf_write w l) = true -> all_of (fst (buf_write w l)) = all_of w ++ l) /\
  (snd (buf_write w l) = false -> room (w_device (fst (buf_write w l))) = 0%nat /\ exists r, all_of w ++ l = content (w_device (fst (buf_write w l))) ++ r) /\
  ((length (all_of w) + length l <= space)%nat -> snd (buf_write w l) = true).
Proof.
  intro Hs. unfold buf_write. cbv zeta. set (spare := (capacity - length (w_buffer w))%nat). assert (Hspare : spare = (capacity - length (w_buffer w))%nat) by reflexivity. assert (Hcap : (0 < capacity)%nat) by (apply Nat.lt_0_succ). clearbody spare.
  destruct (Nat.ltb_spec (length l) spare).
  - cbn [fst snd]. split; [exact Hs|]. split; [intros _; unfold all_of; cbn [w_device w_buffer]; apply app_assoc|]. split; [discriminate|reflexivity].
  - destruct (flush_right space w Hs) as (F1 & F2 & F3 & F4 & F5).
    assert (G : forall (w' : writer) (ok : bool), (if (spare <? length l)%nat then flush w else (w, true)) = (w', ok) ->
      sized space w' /\ all_of w' = all_of w /\ (ok = false -> room (w_device w') = 0%nat) /\ (ok = true -> (capacity <= length l)%nat -> w_buffer w' = []) /\ ((length (all_of w) <= space)%nat -> ok = true)).
    { intros w' ok. destruct (Nat.ltb_spec spare (length l)).
      - destruct (flush w) as (w1 & ok1). cbn [fst snd] in *. intro E. injection E as <- <-. split; [exact F1|]. split; [exact F2|]. split; [exact F4|]. split; [intros E _; apply F3, E|exact F5].
      - intro E. injection E as <- <-. split; [exact Hs|]. split; [reflexivity|]. split; [discriminate|]. split; [|reflexivity]. intros _ Hc. destruct (w_buffer w); [reflexivity|]. cbn [length] in *. exfalso. lia. }
    destruct (if (spare <? length l)%nat then flush w else (w, true)) as (w' & ok) eqn:E. destruct (G w' ok eq_refl) as (G1 & G2 & G3 & G4 & G5). clear G E. destruct ok; cbn [negb].
    + destruct (Nat.leb_spec capacity (length l)).
      * specialize (G4 eq_refl H0). unfold dev_write. destruct w' as (b & (c & r)). cbn [w_buffer w_device content room] in *. subst b. unfold sized, all_of in *. cbn [w_buffer w_device content room fst snd] in *. rewrite app_nil_r in *. rewrite <- G2. rewrite !app_length, firstn_length. split; [lia|]. split; [intro E; rewrite firstn_all_le by lia; reflexivity|]. split; [|intro E; lia].
        intro E. split; [lia|]. exists (skipn r l). rewrite <- app_assoc, firstn_skipn. reflexivity.
      * cbn [fst snd]. split; [exact G1|]. split; [intros _; rewrite <- G2; unfold all_of; cbn [w_device w_buffer]; apply app_assoc|]. split; [discriminate|reflexivity].
    + cbn [fst snd]. split; [exact G1|]. split; [discriminate|]. split; [|intro L; apply G5; lia]. intros _. split; [apply G3; reflexivity|]. exists (w_buffer w' ++ l). rewrite <- G2. unfold all_of. rewrite app_assoc. reflexivity.
Qed.
Lemma pieces_right space ps : forall w, sized space w ->
  sized space (fst (write_pieces w ps)) /\
  (snd (write_pieces w ps) = true -> all_of (fst (write_pieces w ps)) = all_of w ++ concat ps) /\
  (snd (write_pieces w ps) = false -> room (w_device (fst (write_pieces w ps))) = 0%nat /\ exists r, all_of w ++ concat ps = content (w_device (fst (write_pieces w ps))) ++ r) /\
  ((length (all_of w) + length (concat ps) <= space)%nat -> snd (write_pieces w ps) = true).
Proof.
  induction ps as [|p ps IH]; intros w Hs; cbn [write_pieces concat].
  - cbn [fst snd]. rewrite app_nil_r. split; [exact Hs|]. split; [reflexivity|]. split; [discriminate|reflexivity].
  - destruct (buf_write_right space w p Hs) as (B1 & B2 & B3 & B4). destruct (buf_write w p) as (w' & ok). cbn [fst snd] in *. destruct ok.
    + destruct (IH w' B1) as (I1 & I2 & I3 & I4). rewrite (B2 eq_refl) in *. rewrite app_assoc. split; [exact I1|]. split; [exact I2|]. split; [exact I3|]. rewrite !app_length in *. intro L. apply I4. lia.
    + cbn [fst snd]. split; [exact B1|]. split; [discriminate|]. split; [|rewrite app_length; intro L; apply B4; lia]. intros _. destruct (B3 eq_refl) as (R & r & E). split; [exact R|]. exists (r ++ concat ps). rewrite !app_assoc. f_equal. exact E.
Qed.
Lemma file_right space ps : let r := write_pieces (Writer [] (Device [] space)) ps in
  let file := content (drop_writer (fst r)) in
  (exists rest, concat ps = file ++ rest) /\
  ((length (concat ps) <= space)%nat -> snd r = true /\ file = concat ps) /\
  (snd r = true -> file = firstn space (concat ps)).
Proof.
  cbv zeta. destruct (pieces_right space ps (Writer [] (Device [] space)) eq_refl) as (P1 & P2 & P3 & P4). change (all_of (Writer [] (Device [] space))) with (@nil N) in *. cbn [app length] in *. destruct (write_pieces (Writer [] (Device [] space)) ps) as (w & ok). cbn [fst snd] in *.
  unfold drop_writer, flush, dev_write. destruct w as (b & (c & r)). unfold sized, all_of in *. cbn [w_buffer w_device content room fst snd] in *.
  assert (A : ok = true -> c ++ firstn r b = firstn space (concat ps)).
  { intro E. rewrite <- (P2 E), firstn_app. rewrite (firstn_all_le c) by lia. f_equal. f_equal. lia. }
  split; [|split; [|exact A] ].
  - destruct ok.
    + exists (skipn r b). rewrite <- app_assoc, firstn_skipn. symmetry. apply P2. reflexivity.
    + destruct (P3 eq_refl) as (R & x & E). subst r. cbn [firstn]. rewrite app_nil_r. exists x. exact E.
  - intro L. specialize (P4 L). split; [exact P4|]. rewrite (A P4). apply firstn_all_le, L.
Qed.
Lemma small_right space ps : (length (concat ps) < capacity)%nat -> snd (write_pieces (Writer [] (Device [] space)) ps) = true.
Proof.
  assert (G : forall w, (length (w_buffer w) + length (concat ps) < capacity)%nat -> snd (write_pieces w ps) = true); [|intro H; apply G; exact H].
  induction ps as [|p ps IH]; intros w H; [reflexivity|]. cbn [concat write_pieces] in *. rewrite app_length in H. unfold buf_write. cbv zeta. destruct (Nat.ltb_spec (length p) (capacity - length (w_buffer w))); [|exfalso; lia]. apply IH. cbn [w_buffer]. rewrite app_length. lia.
Qed.

(** ** The command line *)
Lemma occurrences_right os : forall m m', add_occurrences m os = Some m' ->
  m_inputs m' = m_inputs m ++ inputs os /\ m_output m' = (match outputs os with [] => m_output m | p :: _ => Some p end) /\
  (m_external m = None -> externals os = [] -> m_external m' = None) /\
  (m_external m <> None \/ externals os <> [] -> m_external m' <> None /\ forall es, m_external m' = Some es -> m_external m = Some es \/ exists ts, parse_externals ts = Some es).
Proof.
  induction os as [|o os IH]; intros m m' H; cbn [add_occurrences] in H.
  - injection H as <-. unfold inputs, outputs, externals. cbn [flat_map]. rewrite app_nil_r. split; [reflexivity|]. split; [reflexivity|]. split; [auto|]. intros [X|X]; [|destruct (X eq_refl)]. split; [exact X|]. intros es E. left. exact E.
  - destruct (add_occurrence m o) as [m1|] eqn:E; [|discriminate H]. destruct (IH m1 m' H) as (I1 & I2 & I3 & I4). destruct o as [p|p|ts|]; cbn [add_occurrence] in E.
    + injection E as <-. cbn [m_inputs m_output m_external m_rustfmt] in *. unfold inputs, outputs, externals in *. cbn [flat_map app]. split; [rewrite I1, <- app_assoc; reflexivity|]. auto.
    + destruct (m_output m) eqn:Eo; [discriminate E|]. injection E as <-. cbn [m_inputs m_output m_external m_rustfmt] in *. unfold inputs, outputs, externals in *. cbn [flat_map app] in *. split; [exact I1|]. split; [|auto].
      rewrite I2. destruct (flat_map (fun o => match o with OutputFile p => [p] | _ => [] end) os) as [|q r] eqn:Ef; [reflexivity|]. exfalso. clear - H Ef. 
      assert (X : forall os m, m_output m <> None -> add_occurrences m os <> None -> flat_map (fun o => match o with OutputFile p => [p] | _ => [] end) os = []).
      { clear. induction os as [|o os IH]; intros m Hm Ha; [reflexivity|]. cbn [add_occurrences] in Ha. destruct (add_occurrence m o) as [m1|] eqn:E; [|destruct (Ha eq_refl)]. cbn [flat_map]. rewrite (IH m1); [|destruct o; cbn [add_occurrence] in E|exact Ha].
        - destruct o; try reflexivity. cbn [add_occurrence] in E. destruct (m_output m); [discriminate E|destruct (Hm eq_refl)].
        - injection E as <-. exact Hm.
        - destruct (m_output m); [discriminate E|destruct (Hm eq_refl)].
        - destruct (m_external m); [discriminate E|]. destruct (parse_externals values); [|discriminate E]. injection E as <-. exact Hm.
        - destruct (m_rustfmt m); [discriminate E|]. injection E as <-. exact Hm. }
      rewrite (X os (Matches (m_inputs m) (Some p) (m_external m) (m_rustfmt m))) in Ef; [discriminate Ef|discriminate|rewrite H; discriminate].
    + destruct (m_external m) eqn:Ee; [discriminate E|]. destruct (parse_externals ts) as [es|] eqn:Ep; [|discriminate E]. injection E as <-. cbn [m_inputs m_output m_external m_rustfmt] in *. unfold inputs, outputs, externals in *. cbn [flat_map app] in *. split; [exact I1|]. split; [exact I2|]. split; [intros _ X; discriminate X|]. intros _. destruct I4 as (J1 & J2); [left; discriminate|]. split; [exact J1|]. intros es' E'. destruct (J2 es' E') as [X|X]; [right; exists ts; congruence|right; exact X].
    + destruct (m_rustfmt m) eqn:Er; [discriminate E|]. injection E as <-. cbn [m_inputs m_output m_external m_rustfmt] in *. unfold inputs, outputs, externals in *. cbn [flat_map app] in *. auto.
Qed.
Lemma occurrences_ok os : forall m, externals os = [] -> (length (outputs os) + (match m_output m with Some _ => 1 | None => 0 end) <= 1)%nat -> (flags os + (match m_rustfmt m with Some _ => 1 | None => 0 end) <= 1)%nat -> add_occurrences m os <> None.
Proof.
  induction os as [|o os IH]; intros m He Ho Hf; [discriminate|]. cbn [add_occurrences]. unfold externals, outputs, flags in *. destruct o as [p|p|ts|]; cbn [flat_map app filter length] in *; cbn [add_occurrence].
  - apply IH; cbn [m_output m_rustfmt]; assumption.
  - destruct (m_output m); [exfalso; lia|]. apply IH; cbn [m_output m_rustfmt]; [assumption|lia|assumption].
  - discriminate He.
  - destruct (m_rustfmt m); [exfalso; lia|]. apply IH; cbn [m_output m_rustfmt]; [assumption|assumption|lia].
Qed.
Lemma externals_stored ts es : parse_externals ts = Some es -> Forall (fun s => exists e, s = StoredExternal e) es.
Proof.
  revert es. induction ts as [|t ts IH]; intros es H; cbn [parse_externals] in H; [injection H as <-; constructor|]. destruct (parse_external t) as [e|]; [|discriminate H]. destruct (parse_externals ts) as [r|]; [|discriminate H]. injection H as <-. constructor; [exists e; reflexivity|apply IH; reflexivity].
Qed.
Lemma args_right os m : get_matches os = Some m ->
  inputs os <> [] /\
  match externals os with
  | [] => get_args m = Ok (Args (inputs os) (hd default_output (outputs os)) [] true)
  | _ => get_args m = Panic
  end.
Proof.
  unfold get_matches. destruct (add_occurrences _ os) as [m'|] eqn:E; [|discriminate]. destruct (occurrences_right os _ _ E) as (I1 & I2 & I3 & I4). cbn [m_inputs m_output m_external app] in *. destruct (m_inputs m') as [|x r] eqn:Ei; [discriminate|]. rewrite <- Ei. intro H. injection H as <-. split; [rewrite <- I1; discriminate|].
  unfold get_args. cbn [m_inputs m_output m_external m_rustfmt]. replace (match m_output m' with Some p => p | None => default_output end) with (hd default_output (outputs os)) by (rewrite I2; destruct (outputs os); reflexivity). destruct (externals os) as [|ts tss] eqn:Ex.
  - rewrite (I3 eq_refl eq_refl). cbn [get_many_strings contains_id]. rewrite Ei, I1. reflexivity.
  - destruct I4 as (J1 & J2); [right; discriminate|]. destruct (m_external m') as [es|]; [|destruct (J1 eq_refl)]. destruct (J2 es eq_refl) as [X|(ts' & X)]; [discriminate X|]. pose proof (externals_stored _ _ X) as F. destruct es as [|s es]; [reflexivity|]. inversion F as [|s' es' (e & ->) _]. reflexivity.
Qed.
Lemma matches_ok os : inputs os <> [] -> externals os = [] -> (length (outputs os) <= 1)%nat -> (flags os <= 1)%nat -> exists m, get_matches os = Some m.
Proof.
  intros Hi He Ho Hf. unfold get_matches. pose proof (occurrences_ok os (Matches [] None None None) He) as X. cbn [m_output m_rustfmt] in X. destruct (add_occurrences _ os) as [m|] eqn:E; [|destruct (X ltac:(lia) ltac:(lia) eq_refl)]. destruct (occurrences_right os _ _ E) as (I1 & _). cbn [m_inputs app] in I1. rewrite I1. destruct (inputs os); [destruct (Hi eq_refl)|]. eexists. reflexivity.
Qed.
