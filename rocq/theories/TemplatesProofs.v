(** Reloading templates. *)
From Coq Require Import Lia ZArith Sorting.Sorted OrderedTypeEx.
From stdpp Require Import base tactics functions strings list sorting.
From Verif Require Import Templates.

(** Byte-wise order of names, as filepath.Glob sorts them. *)
Definition before {content} (f g : file content) : Prop := String_as_OT.lt (f_name f) (f_name g).
Definition is_dir {content} (d : dir content) : Prop := StronglySorted before d.

Section Sorted.
  Context {content : Type}.
  Implicit Types d : dir content.

  Lemma before_trans (f g h : file content) : before f g → before g h → before f h.
  Proof. apply String_as_OT.lt_trans. Qed.
  Lemma before_irrefl (f : file content) : ¬ before f f.
  Proof. intros H. by apply String_as_OT.lt_not_eq in H. Qed.

  Lemma sorted_eq d d' : is_dir d → is_dir d' → (∀ f, f ∈ d ↔ f ∈ d') → d = d'.
  Proof.
    unfold is_dir. revert d'. induction d as [|f d IH]; intros [|g d'] H1 H2 H.
    - done.
    - destruct (H g) as [_ X]. specialize (X ltac:(left)). by apply elem_of_nil in X.
    - destruct (H f) as [X _]. specialize (X ltac:(left)). by apply elem_of_nil in X.
    - apply StronglySorted_inv in H1 as [S1 F1], H2 as [S2 F2]. rewrite Forall_forall in F1, F2.
      assert (f = g) as ->.
      { destruct (H f) as [X _]. destruct (H g) as [_ Y]. specialize (X ltac:(left)). specialize (Y ltac:(left)).
        apply elem_of_cons in X as [->|X]; [done|]. apply elem_of_cons in Y as [->|Y]; [done|].
        exfalso. eapply (before_irrefl f), before_trans; [apply F1, Y|apply F2, X]. }
      f_equal. apply IH; [done..|]. intros x. split; intros Hx.
      + destruct (H x) as [X _]. specialize (X ltac:(by right)). apply elem_of_cons in X as [->|X]; [|done].
        by destruct (before_irrefl g (F1 _ Hx)).
      + destruct (H x) as [_ X]. specialize (X ltac:(by right)). apply elem_of_cons in X as [->|X]; [|done].
        by destruct (before_irrefl g (F2 _ Hx)).
  Qed.

  Lemma names_unique d f g : is_dir d → f ∈ d → g ∈ d → f_name f = f_name g → f = g.
  Proof.
    unfold is_dir. induction 1 as [|x d Hs IH Hf]; intros H1 H2 E; [by apply elem_of_nil in H1|].
    rewrite Forall_forall in Hf. apply elem_of_cons in H1 as [->|H1], H2 as [->|H2]; [done|..|by auto].
    - pose proof (Hf _ H2) as X. unfold before in X. rewrite E in X. by apply String_as_OT.lt_not_eq in X.
    - pose proof (Hf _ H1) as X. unfold before in X. rewrite E in X. by apply String_as_OT.lt_not_eq in X.
  Qed.
End Sorted.

Section Proofs.
  Context {content tree : Type}.
  Variable parse : string → content → option (list (string * tree)).
  Variable empty : tree → bool.
  Variable bundled : tset tree.
  Notation dir := (dir content).
  Notation add_files := (add_files parse empty).
  Notation load := (load parse empty bundled).

  Lemma associate_ne s d n : d.1 ≠ n → associate empty s d n = s n.
  Proof. intros H. unfold associate. case_match; [done|]. by rewrite fn_lookup_insert_ne. Qed.
  Lemma associate_eq s n t : associate empty s (n, t) n = Some (if empty t then default t (s n) else t).
  Proof.
    unfold associate. simpl. destruct (empty t) eqn:E, (s n) eqn:E'; simpl; rewrite ?fn_lookup_insert; done.
  Qed.
  Lemma fold_other defs s n : n ∉ defs.*1 → fold_left (associate empty) defs s n = s n.
  Proof.
    revert s. induction defs as [|[m t] defs IH]; intros s H; [done|]. simpl in *.
    apply not_elem_of_cons in H as [H1 H2]. rewrite IH by done. by apply associate_ne.
  Qed.
  Lemma fold_own defs s n t : NoDup defs.*1 → (n, t) ∈ defs →
    fold_left (associate empty) defs s n = Some (if empty t then default t (s n) else t).
  Proof.
    revert s. induction defs as [|[m u] defs IH]; intros s Hd H; [by apply elem_of_nil in H|].
    simpl in *. apply NoDup_cons in Hd as [Hm Hd]. apply elem_of_cons in H as [[= <- <-]|H].
    - rewrite fold_other by done. apply associate_eq.
    - rewrite IH by done. rewrite associate_ne; [done|]. simpl. intros <-. apply Hm.
      apply elem_of_list_fmap. by exists (m, t).
  Qed.

  (** What a file defines. *)
  Definition defines (f : file content) (n : string) (t : tree) : Prop :=
    ∃ c defs, f_read f = Some c ∧ parse (f_name f) c = Some defs ∧ (n, t) ∈ defs.

  Lemma add_files_other (d : dir) s s' n : add_files d s = (s', true) →
    (∀ f t, f ∈ d → ¬ defines f n t) → s' n = s n.
  Proof.
    revert s. induction d as [|f d IH]; intros s H Hn; simpl in H; [by inversion H|].
    destruct (f_read f) as [c|] eqn:Ec; simpl in H; [|by inversion H].
    unfold add_text in H. destruct (parse (f_name f) c) as [defs|] eqn:Ep; simpl in H; [|by inversion H].
    rewrite (IH _ H) by (intros g t Hg; apply Hn; by right).
    apply fold_other. intros ([m t] & -> & Ht)%elem_of_list_fmap. apply (Hn f t); [by left|]. by exists c, defs.
  Qed.

  Lemma add_files_own (d : dir) s s' f n t : add_files d s = (s', true) → f ∈ d →
    defines f n t → (∀ c defs, f_read f = Some c → parse (f_name f) c = Some defs → NoDup defs.*1) →
    (∀ g u, g ∈ d → g ≠ f → ¬ defines g n u) → NoDup d →
    s' n = Some (if empty t then default t (s n) else t).
  Proof.
    revert s. induction d as [|g d IH]; intros s H Hf Hd Hnd Ho Hu; simpl in H; [by apply elem_of_nil in Hf|].
    destruct (f_read g) as [c|] eqn:Ec; simpl in H; [|by inversion H].
    unfold add_text in H. destruct (parse (f_name g) c) as [defs|] eqn:Ep; simpl in H; [|by inversion H].
    apply NoDup_cons in Hu as [Hg Hu]. apply elem_of_cons in Hf as [<-|Hf].
    - rewrite (add_files_other _ _ _ _ H).
      + destruct Hd as (c' & defs' & Ec' & Ep' & Ht). simplify_eq. apply fold_own; [by eapply Hnd|done].
      + intros g u Hgd. apply Ho; [by right|]. intros ->. done.
    - rewrite (IH _ H Hf Hd Hnd); [|intros; apply Ho; [by right|done]|done].
      rewrite fold_other; [done|]. intros ([m u] & -> & Hmu)%elem_of_list_fmap.
      apply (Ho g u); [by left| |by exists c, defs]. intros ->. done.
  Qed.

  Lemma add_files_parse (d : dir) s s' : add_files d s = (s', true) →
    ∀ f, f ∈ d → ∃ c defs, f_read f = Some c ∧ parse (f_name f) c = Some defs.
  Proof.
    revert s. induction d as [|g d IH]; intros s H f Hf; simpl in H; [by apply elem_of_nil in Hf|].
    destruct (f_read g) as [c|] eqn:Ec; simpl in H; [|by inversion H].
    unfold add_text in H. destruct (parse (f_name g) c) as [defs|] eqn:Ep; simpl in H; [|by inversion H].
    apply elem_of_cons in Hf as [->|Hf]; [by exists c, defs|]. by eapply IH.
  Qed.

  Lemma is_dir_NoDup (d : dir) : is_dir d → NoDup d.
  Proof.
    unfold is_dir. induction 1 as [|f d Hs IH Hf]; constructor; [|done]. intros H. rewrite Forall_forall in Hf.
    by eapply (before_irrefl f), Hf.
  Qed.

  (** Checking. *)
  Definition fresh (times : string → option Z) (f : file content) : Prop :=
    ∀ t t', f_stat f = Some t → times (f_name f) = Some t' → (t' < t)%Z.

  Lemma check_times (d : dir) times r : is_dir d → (∀ f, f ∈ d → f_stat f ≠ None) →
    ∃ times' r', check d times r = (times', Some r') ∧
      (∀ f, f ∈ d → times' (f_name f) = f_stat f) ∧
      (∀ n, (∀ f, f ∈ d → f_name f ≠ n) → times' n = times n) ∧
      (r' = true ↔ r = true ∨ ∃ f, f ∈ d ∧ fresh times f).
  Proof.
    unfold is_dir. intros Hs. revert times r. induction Hs as [|f d Hs IH Hf]; intros times r Hst.
    { exists times, r. split_and!; [done|by intros ? ?%elem_of_nil|done|].
      split; [by left|]. intros [?|(f & Hf & _)]; [done|by apply elem_of_nil in Hf]. }
    rewrite Forall_forall in Hf. cbn [check]. pose proof (Hst f ltac:(left)) as Hsf.
    destruct (f_stat f) as [t|] eqn:Et; [|done]. clear Hsf.
    set (newer := match times (f_name f) with None => true | Some t' => (t' <? t)%Z end).
    destruct (IH (<[f_name f:=Some t]> times) (r || newer)) as (times' & r' & E & H1 & H2 & H3).
    { intros g Hg. apply Hst. by right. }
    exists times', r'. split_and!; [done| | |].
    - intros g [->|Hg]%elem_of_cons; [|by apply H1]. rewrite H2, fn_lookup_insert; [done|].
      intros g Hg. pose proof (Hf g Hg) as X. apply String_as_OT.lt_not_eq in X. congruence.
    - intros n Hn. rewrite H2 by (intros; apply Hn; by right). rewrite fn_lookup_insert_ne; [done|].
      apply Hn. left.
    - rewrite H3, orb_true_iff. assert (newer = true ↔ fresh times f) as Hnew.
      { unfold newer, fresh. rewrite Et. destruct (times (f_name f)) as [t'|].
        - rewrite Z.ltb_lt. split; [intros ? ? ? [= <-] [= <-]; done|]. intros X. by apply X.
        - split; [by intros|done]. }
      assert (∀ g, g ∈ d → fresh (<[f_name f:=Some t]> times) g ↔ fresh times g) as Hfr.
      { intros g Hg. pose proof (Hf g Hg) as X. apply String_as_OT.lt_not_eq in X. unfold fresh.
        by rewrite fn_lookup_insert_ne. }
      split.
      + intros [[?|?]|(g & Hg & Hx)]; [by left|right..].
        * exists f. split; [left|by apply Hnew].
        * exists g. split; [by right|by apply Hfr].
      + intros [?|(g & [->|Hg]%elem_of_cons & Hx)]; [by left; left| |].
        * left. right. by apply Hnew.
        * right. exists g. split; [done|by apply Hfr].
  Qed.

  (** How a directory may change between loads: no file disappears and those that
      get a new content also get a newer time. *)
  Definition evolves (d d' : dir) : Prop :=
    is_dir d' ∧ (∀ f, f ∈ d' → f_stat f ≠ None) ∧
    ∀ f, f ∈ d → ∃ f' t t', f' ∈ d' ∧ f_name f' = f_name f ∧ f_stat f = Some t ∧ f_stat f' = Some t' ∧
      ((t < t')%Z ∨ t = t' ∧ f_read f' = f_read f).
  (** Some file is new or has a newer time. *)
  Definition touched (d d' : dir) : Prop :=
    ∃ f', f' ∈ d' ∧ ∀ f t t', f ∈ d → f_name f = f_name f' → f_stat f = Some t → f_stat f' = Some t' → (t < t')%Z.

  (** Histories of loads with such changes in between; after a load that failed
      something is touched. The directory is the one of the last load. *)
  Inductive history : dir → bool → engine tree → Prop :=
  | h_new : history [] true (new_engine bundled)
  | h_load d ok e d' e' ok' : history d ok e → evolves d d' → (ok = false → touched d d') →
      load d' e = (e', ok') → history d' ok' e'.

  Lemma history_dir d ok e : history d ok e → is_dir d ∧ ∀ f, f ∈ d → f_stat f ≠ None.
  Proof.
    destruct 1 as [|d ok e d' e' ok' _ (H1 & H2 & _)]; [|done].
    split; [constructor|by intros ? ?%elem_of_nil].
  Qed.

  Lemma history_inv d ok e : history d ok e →
    (∀ f, f ∈ d → e_times e (f_name f) = f_stat f) ∧
    (∀ n, (∀ f, f ∈ d → f_name f ≠ n) → e_times e n = None) ∧
    (ok = true → add_files d bundled = (e_tmpl e, true)).
  Proof.
    induction 1 as [|d ok e d' e' ok' Hh (I1 & I2 & I3) Hev Hto Hl].
    { split_and!; simpl; [by intros ? ?%elem_of_nil|done|done]. }
    destruct (history_dir _ _ _ Hh) as [Hd Hst]. destruct Hev as (Hd' & Hst' & Hev).
    destruct (check_times d' (e_times e) false Hd' Hst') as (times & r & Ec & H1 & H2 & H3).
    unfold Templates.load in Hl. rewrite Ec in Hl.
    assert (∀ n, (∀ f, f ∈ d' → f_name f ≠ n) → times n = None) as Hnone.
    { intros n Hn. rewrite H2 by done. apply I2. intros f Hf <-.
      destruct (Hev f Hf) as (f' & t & t' & Hf' & E & _). by eapply Hn. }
    destruct r.
    - destruct (add_files d' bundled) as [s ok2] eqn:Ea. simplify_eq. simpl. split_and!; [done|done|].
      by intros ->.
    - simplify_eq. simpl. split_and!; [done..|]. intros _.
      assert (¬ ∃ f, f ∈ d' ∧ fresh (e_times e) f) as Hno.
      { intros X. by assert (false = true) by (apply H3; by right). }
      assert (ok = true) as ->.
      { destruct ok; [done|]. destruct (Hto eq_refl) as (f' & Hf' & Hf). destruct Hno. exists f'. split; [done|].
        intros t t' Ht Ht'. destruct (decide (Exists (λ f, f_name f = f_name f') d)) as [(f & Hfd & E)%Exists_exists|Hn].
        - eapply Hf; [exact Hfd|done| |done]. by rewrite <- I1, E.
        - rewrite I2 in Ht'; [done|]. intros f Hfd E. apply Hn, Exists_exists. by exists f. }
      assert (d' = d) as ->; [|by apply I3].
      apply sorted_eq; [done..|]. intros f. split.
      + intros Hf. destruct (decide (Exists (λ g, f_name g = f_name f) d)) as [(g & Hg & E)%Exists_exists|Hx].
        2:{ exfalso. apply Hno. exists f. split; [done|]. intros t t' Ht Ht'.
          rewrite I2 in Ht'; [done|]. intros g Hg E. apply Hx, Exists_exists. by exists g. }
        destruct (Hev g Hg) as (f' & u & u' & Hf' & E' & Eu & Eu' & Hlt).
        assert (f' = f) as -> by (eapply (names_unique d'); [done..|congruence]).
        destruct Hlt as [Hlt|[-> Er]].
        * exfalso. apply Hno. exists f. split; [done|]. intros t t' Ht Ht'.
          rewrite <- E, I1 in Ht' by done. simplify_eq. lia.
        * assert (f = g) as -> by (destruct f, g; simpl in *; congruence). done.
      + intros Hf. destruct (Hev f Hf) as (f' & u & u' & Hf' & E' & Eu & Eu' & Hlt).
        destruct Hlt as [Hlt|[-> Er]].
        * exfalso. apply Hno. exists f'. split; [done|]. intros t t' Ht Ht'.
          rewrite E', I1 in Ht' by done. simplify_eq. lia.
        * assert (f = f') as -> by (destruct f, f'; simpl in *; congruence). done.
  Qed.
End Proofs.
