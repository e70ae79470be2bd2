(** Collecting the anchors of a book (Book.v). *)
From Coq Require Import Ascii String.
From stdpp Require Import base tactics relations strings list.
From Verif Require Import GoBase Ast Grammar Content ContentSpec ContentProofs Section StrProofs TreeSpec TreeProofs TagProofs QueryProofs
  Evaluate EvalProofs EvalFrame EvalInv EvalSpec EvalTheory EvalMore BaseSpec BaseRuns Collect Book BookEval BookStore.
Local Open Scope string_scope. Local Open Scope list_scope.

Definition add (ts : list tag) (x : section) : section := set_tags x (s_tags x ++ ts).
Lemma add_nil h i : upd h i (add []) = h.
Proof.
  apply list_eq. intros j. rewrite upd_lookup. destruct (decide (i = j)) as [<-|]; [|done].
  destruct (h !! i) as [x|]; [|done]. simpl. unfold add. rewrite (right_id_L [] (++)). by destruct x.
Qed.
Lemma add_add h i a b : upd (upd h i (add a)) i (add b) = upd h i (add (a ++ b)).
Proof.
  apply list_eq. intros j. rewrite !upd_lookup. destruct (decide (i = j)) as [<-|]; [|done].
  destruct (h !! i) as [x|]; [|done]. simpl. unfold add. simpl. by rewrite (assoc_L (++)).
Qed.

Section words.
  Context (ord : nat → nat → list nat) (jump : nat → nat → CM) (i : nat).

  (** Visiting adds tags for the given anchors. *)
  Definition adds (m : CM) (l : list (string * list span)) : Prop := ∀ h k x, h !! i = Some x →
    ∃ ts k', m (h, k) = Ok (upd h i (add ts), k') ∧ Forall2 (anchor_is i) l ts.

  Lemma adds_skip : adds cskip [].
  Proof. intros h k x Hx. exists [], k. by rewrite add_nil. Qed.
  Lemma adds_cseq ms ls : Forall2 adds ms ls → adds (cseq ms) (concat ls).
  Proof.
    induction 1 as [|m l ms ls Hm _ IH]; [apply adds_skip|]. intros h k x Hx. simpl.
    destruct (Hm h k x Hx) as (ts & k1 & -> & F1). simpl.
    destruct (IH (upd h i (add ts)) k1 (add ts x)) as (ts' & k2 & -> & F2); [by rewrite (upd_lookup_eq _ _ _ _ Hx)|].
    exists (ts ++ ts'), k2. rewrite add_add. split; [done|]. by apply Forall2_app.
  Qed.
  Lemma adds_seq2 m m' l l' : adds m l → adds m' l' → adds (cseq [m; m']) (l ++ l').
  Proof. intros H H'. rewrite <- (right_id_L [] (++) l'). apply (adds_cseq [m; m'] [l; l']). by repeat constructor. Qed.
  Lemma adds_range : adds (map_range ord []) [].
  Proof.
    intros h k x Hx. exists [], (S k). rewrite add_nil. split; [|constructor]. unfold map_range. simpl.
    assert (omap (λ j, ([] : list CM) !! j) (ord k 0) = []) as -> by by induction (ord k 0). done.
  Qed.

  Lemma span_seq w c : span_is i w c → ∀ l, c ≠ CSeq l.
  Proof. by inversion 1. Qed.
  Lemma joined_not_seq cs : Forall (λ c, ∀ l, c ≠ CSeq l) cs → cs ≠ [] →
    joined cs = Some (match cs with [c] => c | _ => CSeq cs end).
  Proof.
    intros F Hn. destruct F as [|c cs Hc F]; [done|]. destruct F as [|c' cs Hc' F]; [done|]. simpl.
    destruct c; try done. by destruct (Hc l).
  Qed.
  Lemma adds_joined cs c ls : Forall (λ c, ∀ l, c ≠ CSeq l) cs → joined cs = Some c → Forall2 (λ c l, adds (visit ord jump i c) l) cs ls →
    adds (visit ord jump i c) (concat ls).
  Proof.
    intros Hs J F. rewrite joined_not_seq in J; [|done|by intros ->]. injection J as <-.
    assert (adds (visit ord jump i (CSeq cs)) (concat ls)) as H by (apply (adds_cseq (map (visit ord jump i) cs)); by apply Forall2_fmap_l).
    destruct F as [|c l cs ls Hc F]; [done|]. destruct F; [|done]. simpl. by rewrite (right_id_L [] (++)).
  Qed.

  Lemma flat_concat {A B} (f : A → list B) l : flat_map f l = concat (map f l).
  Proof. apply flat_map_concat_map. Qed.
  Lemma plain_anchors w : plain_span w = true → anchors w = [].
  Proof.
    induction w as [t|k l IH|l u IH|p d|t l IH|t l IH] using span_ind'; simpl; intros Hp; try done.
    all: induction IH as [|w l Hw _ IHl]; [done|]; simpl in Hp; apply andb_true_iff in Hp as [? ?]; simpl; by rewrite Hw, IHl.
  Qed.
  Lemma plains_anchors l : forallb plain_span l = true → flat_map anchors l = [].
  Proof. induction l as [|w l IH]; [done|]. simpl. intros [H1 H2]%andb_true_iff. by rewrite plain_anchors, IH. Qed.

  Lemma adds_span w c : span_is i w c → adds (visit ord jump i c) (anchors w).
  Proof.
    revert c.
    assert (∀ l, Forall (λ w, ∀ c, span_is i w c → adds (visit ord jump i c) (anchors w)) l → ∀ cs c, Forall2 (span_is i) l cs → joined cs = Some c →
      adds (visit ord jump i c) (flat_map anchors l)) as Hall.
    { intros l Hl cs c F J. rewrite flat_concat. apply (adds_joined cs c (map anchors l)); [|done|].
      - clear - F. induction F; constructor; [by eapply span_seq|done].
      - clear J. revert cs F. induction Hl as [|w1 l Hw _ IH]; intros cs F; inversion F; subst; constructor; [by apply Hw|by apply IH]. }
    induction w as [t|k l IH|l u IH|p d|t l IH|t l IH] using span_ind'; intros c Hc; inversion Hc as [|? ? cs ? F J|? ? cs ? F J| | |? ? cs ? ? F J]; subst; simpl.
    - apply adds_skip.
    - rewrite <- (right_id_L [] (++) (flat_map anchors l)). apply adds_seq2; [by eapply Hall|apply adds_range].
    - by eapply Hall.
    - apply adds_skip.
    - apply adds_skip.
    - intros h k x Hx. simpl. rewrite Hx. eexists [_], k. split; [done|]. constructor; [|constructor].
      eexists _, _. split; [|done]. by exists cs.
  Qed.
  Lemma adds_line l c : line_is i l c → adds (visit ord jump i c) (flat_map anchors l).
  Proof.
    intros (cs & F & J). rewrite flat_concat. apply (adds_joined cs c); [|done|].
    - clear J. induction F; constructor; [by eapply span_seq|done].
    - clear J. induction F; constructor; [by apply adds_span|done].
  Qed.
  Lemma adds_lines ls cs : Forall2 (line_is i) ls cs → adds (cseq (map (visit ord jump i) cs)) (flat_map anchors (concat ls)).
  Proof.
    intros F. assert (flat_map anchors (concat ls) = concat (map (flat_map anchors) ls)) as ->.
    { clear F. induction ls as [|l ls IH]; [done|]. simpl. by rewrite flat_map_app, IH. }
    apply adds_cseq. apply Forall2_fmap. apply Forall2_flip. eapply Forall2_impl; [exact F|]. intros l c. by apply adds_line.
  Qed.

  Lemma adds_piece p c : piece_is i p c → adds (visit ord jump i c) (piece_anchors p).
  Proof.
    intros Hp. destruct Hp as [lines cs F|o items cs F|lines cs F|rows css F|defs cs F|]; unfold piece_anchors; simpl.
    - by apply adds_lines.
    - by apply adds_lines.
    - rewrite <- (right_id_L [] (++) (flat_map anchors _)). apply adds_seq2; [by apply adds_lines|apply adds_range].
    - assert (flat_map anchors (concat (map (@concat span) rows)) = concat (map (λ row, flat_map anchors (concat row)) rows)) as ->.
      { clear F. induction rows as [|row rows IH]; [done|]. simpl. by rewrite flat_map_app, IH. }
      apply adds_cseq. apply Forall2_fmap. apply Forall2_flip. eapply Forall2_impl; [exact F|]. intros row cs F'. by apply adds_lines.
    - assert (flat_map anchors (concat (map (λ d : list span * list span, fst d ++ snd d) defs)) =
        concat (map (λ d : list span * list span, flat_map anchors (fst d) ++ flat_map anchors (snd d)) defs)) as ->.
      { clear F. induction defs as [|d defs IH]; [done|]. simpl. by rewrite !flat_map_app, IH. }
      apply adds_cseq. apply Forall2_fmap. apply Forall2_flip. eapply Forall2_impl; [exact F|]. intros d [c1 c2] [F1 F2].
      apply adds_seq2; by apply adds_line.
    - apply adds_skip.
  Qed.
  Lemma piece_seq p c : piece_is i p c → ∀ l, c ≠ CSeq l.
  Proof. by inversion 1. Qed.
  Lemma adds_body body c : body_is i body c → adds (visit ord jump i c) (flat_map piece_anchors body).
  Proof.
    intros (cs & F & ->). destruct F as [|p c ps cs Hc F]; [apply adds_skip|].
    assert (Forall2 (piece_is i) (p :: ps) (c :: cs)) as F' by by constructor. clear Hc F. revert F'. generalize (p :: ps). intros body F.
    assert (Forall (λ c, ∀ l, c ≠ CSeq l) (c :: cs)) as Hs.
    { clear - F. induction F; constructor; [by eapply piece_seq|done]. }
    pose proof (joined_not_seq _ Hs) as J. rewrite J by done. simpl. rewrite flat_concat. eapply adds_joined; [exact Hs|by apply J|].
    clear - F. induction F; constructor; [by apply adds_piece|done].
  Qed.
End words.

(** Anchors collected, section by section. *)
Lemma collect_sec ord b : sec_fine b = true → ∀ n h k par i, size b ≤ n → stored false h par b i →
  ∃ h' k', collect ord n i i (h, k) = Ok (h', k') ∧ stored true h' par b i ∧ length h' = length h ∧
    ∀ j, ¬ i ≤ j < i + size b → h' !! j = h !! j.
Proof.
  induction b as [title tags split omit body subs IH] using sec_ind'. intros Hf n h k par i Hn Hst.
  set (b := Sec title tags split omit body subs) in *.
  destruct Hst as [(x & Hx & Ha) Hl]. destruct n as [|n]; [simpl in Hn; lia|].
  assert (forallb plain_span title = true) as Hplain by (simpl in Hf; repeat (apply andb_true_iff in Hf as [Hf ?]); done).
  assert (forallb sec_fine subs = true) as Hsubs by (simpl in Hf; by apply andb_true_iff in Hf as [_ Hf]).
  simpl. unfold Collect.visit_section. simpl. rewrite Hx.
  pose proof (adds_line ord (collect ord n) i title _ (at_title _ _ _ _ _ Ha)) as A1. rewrite plains_anchors in A1 by done.
  pose proof (adds_body ord (collect ord n) i body _ (at_body _ _ _ _ _ Ha)) as A2.
  rewrite (at_partials _ _ _ _ _ Ha).
  destruct (A1 h k x Hx) as (ts1 & k1 & E1 & F1). inversion F1; subst. rewrite add_nil in E1. simpl. rewrite E1. simpl.
  destruct (A2 h k1 x Hx) as (ts & k2 & E2 & F2). rewrite E2. simpl.
  set (h1 := upd h i (add ts)).
  assert (h1 !! i = Some (add ts x)) as Hx1 by (unfold h1; by rewrite (upd_lookup_eq _ _ _ _ Hx)).
  destruct (adds_range ord i h1 k2 _ Hx1) as (ts3 & k3 & E3 & F3). inversion F3; subst. rewrite add_nil in E3. simpl in E3. rewrite E3. simpl.
  rewrite (at_children _ _ _ _ _ Ha). simpl.
  assert (∀ j, S i ≤ j → j + sizes subs ≤ i + size b → ∀ hh kk, stored_list (stored false hh (Some i)) subs j →
    ∃ h' k', cseq (map (λ c, collect ord n c c) (kids j subs)) (hh, kk) = Ok (h', k') ∧ stored_list (stored true h' (Some i)) subs j ∧
      length h' = length hh ∧ ∀ q, ¬ j ≤ q < j + sizes subs → h' !! q = hh !! q) as Hgo.
  { clear Hl Ha A1 A2 E1 E2 E3 F2 Hf. set (m := i + size b) in *. assert (sizes subs ≤ n) as Hsz by (simpl in Hn; lia). clearbody m. subst b. clear Hn.
    induction IH as [|c l Hc _ IHl]; intros j Hj Hm hh kk Hs.
    - exists hh, kk. done.
    - simpl in Hsubs, Hsz, Hm, Hs. apply andb_true_iff in Hsubs as [Hf1 Hf2]. destruct Hs as [Hs1 Hs2].
      destruct (Hc Hf1 n hh kk (Some i) j) as (h2 & k4 & E4 & S4 & L4 & O4); [lia|done|]. simpl. rewrite E4. simpl.
      destruct (IHl Hf2) with (j := j + size c) (hh := h2) (kk := k4) as (h3 & k5 & E5 & S5 & L5 & O5); [lia|lia|lia| |].
      { eapply stored_list_same; [|exact Hs2]. intros q Hq. apply O4. lia. }
      exists h3, k5. split; [done|]. split; [split; [|done]|].
      + eapply stored_same; [|exact S4]. intros q Hq. apply O5. lia.
      + split; [congruence|]. intros q Hq. rewrite O5 by lia. apply O4. lia. }
  destruct (Hgo (S i)) with (hh := h1) (kk := k3) as (h' & k' & E4 & S4 & L4 & O4); [lia|simpl; lia| |].
  { eapply stored_list_same; [|exact Hl]. intros q Hq. unfold h1. apply upd_lookup_ne. lia. }
  exists h', k'. split; [exact E4|]. split; [|split].
  - split; [|exact S4]. exists (add ts x). split; [rewrite O4 by lia; done|].
    destruct Ha as [? ? ? ? ? ? Ht Hb (l & ts' & Htags & ->) Hprim ?]. constructor; try done.
    + exists l, ts. split; [|done]. unfold add. simpl. rewrite Htags. by rewrite (right_id_L [] (++)).
    + unfold add. simpl. by destruct (s_tags x).
  - rewrite L4. unfold h1. apply upd_length.
  - intros q Hq. rewrite O4 by (simpl in Hq; lia). unfold h1. apply upd_lookup_ne. simpl in Hq. lia.
Qed.
