(** C24, C25, C26. *)
From Coq Require Import Ascii String Lia.
From stdpp Require Import base tactics strings list.
From Verif Require Import GoBase Ast Content ContentSpec.

(** ** Induction on content *)

Definition optP (P : content → Prop) (o : option content) : Prop :=
  match o with Some c => P c | None => True end.

Lemma content_ind' (P : content → Prop) :
  (∀ s, P (CString s)) →
  (∀ l, Forall P l → P (CSeq l)) →
  (∀ l, Forall P l → P (CPara l)) →
  (∀ l, Forall P l → P (CPre l)) →
  (∀ sec t rc o l, optP P rc → P (CRef sec t rc o l)) →
  (∀ c t, P c → P (CLink c t)) →
  (∀ s, P (CSection s)) →
  (∀ s, P (CToc s)) →
  (∀ st b c ps, P c → Forall (λ p, optP P (snd p)) ps → P (CStyled st b c ps)) →
  (∀ t l ti x, optP P ti → optP P x → P (CTarget t l ti x)) →
  (∀ p d, P (CImage p d)) →
  (∀ l o, Forall P l → P (CList l o)) →
  (∀ rows, Forall (Forall P) rows → P (CTable rows)) →
  (∀ defs, Forall (λ p, P (fst p) ∧ P (snd p)) defs → P (CDefs defs)) →
  (∀ b t, P (CLazy b t)) →
  (∀ c, P c → P (CAux c)) →
  ∀ c, P c.
Proof.
  intros HS Hseq Hpara Hpre Href Hlink Hsec Htoc Hst Htg Him Hli Htb Hdf Hlz Hax.
  refine (fix go (c : content) : P c := _).
  assert (∀ o, optP P o) as Ho by (intros [x|]; [apply go|exact I]).
  destruct c as [s|l|l|l|sec t rc o l|c t|s|s|st b c ps|t l ti x|p d|l o|rows|defs|b t|c].
  - apply HS.
  - apply Hseq. revert l. fix goL 1. intros [|x l]; constructor; [apply go|apply goL].
  - apply Hpara. revert l. fix goL 1. intros [|x l]; constructor; [apply go|apply goL].
  - apply Hpre. revert l. fix goL 1. intros [|x l]; constructor; [apply go|apply goL].
  - apply Href. destruct rc as [x|]; [apply go|exact I].
  - apply Hlink, go.
  - apply Hsec.
  - apply Htoc.
  - apply Hst; [apply go|]. revert ps. fix goL 1. intros [|[k [x|]] l]; constructor; try apply goL; [apply go|exact I].
  - apply Htg; [destruct ti as [y|]|destruct x as [y|]]; (apply go || exact I).
  - apply Him.
  - apply Hli. revert l. fix goL 1. intros [|x l]; constructor; [apply go|apply goL].
  - apply Htb. revert rows. fix goL 1. intros [|r rows]; constructor; [|apply goL].
    revert r. fix goR 1. intros [|x r]; constructor; [apply go|apply goR].
  - apply Hdf. revert defs. fix goL 1. intros [|[s d] defs]; constructor; [|apply goL]. split; apply go.
  - apply Hlz.
  - apply Hax, go.
Qed.

(** ** C26 *)

Lemma is_flow_spec c : is_flow c = true ↔ ¬ ∃ x, part c x ∧ is_block x.
Proof.
  induction c as [s|l IH|l IH|l IH|sec t rc o l IH|c t IH|s|s|st b c ps IH IHps|t l ti x IHt IHx|p d|l o IH|rows IH|defs IH|b t|c IH]
    using content_ind'; simpl.
  all: try (split; [intros _ (x' & Hp & Hb); inversion Hp; subst; simpl in Hb; done|done]).
  all: try (split; [done|intros H; exfalso; apply H; eexists; split; [apply part_self|exact I]]).
  - rewrite forallb_forall. split.
    + intros H (x & Hp & Hb). inversion Hp; subst; [simpl in Hb; done|].
      rewrite Forall_forall in IH.
      match goal with Hx : ?y ∈ l, Hq : part ?y ?z |- _ =>
        apply (IH y Hx); [apply H; by apply elem_of_list_In|by exists z] end.
    + intros H y Hy. rewrite Forall_forall in IH. apply elem_of_list_In in Hy. apply (IH y Hy).
      intros (x & Hp & Hb). apply H. exists x. split; [by eapply part_seq|done].
  - rewrite IH. split; intros H (x & Hp & Hb); apply H.
    + inversion Hp; subst; [simpl in Hb; done|]. by exists x.
    + exists x. split; [by constructor|done].
  - destruct b.
    + split; [done|]. intros H. exfalso. apply H. eexists. split; [apply part_self|done].
    + rewrite IH. split; intros H (x & Hp & Hb); apply H.
      * inversion Hp; subst; [simpl in Hb; done|]. by exists x.
      * exists x. split; [by constructor|done].
  - destruct b; simpl.
    + split; [done|]. intros H. exfalso. apply H. eexists. split; [apply part_self|done].
    + split; [|done]. intros _ (x & Hp & Hb). inversion Hp; subst. simpl in Hb. done.
  - rewrite IH. split; intros H (x & Hp & Hb); apply H.
    + inversion Hp; subst; [simpl in Hb; done|]. by exists x.
    + exists x. split; [by constructor|done].
Qed.

(** ** C25 *)

Lemma append_one_some a c : go_append (Some a) [Some c] = Some (CSeq (elements (Some a) ++ [c])).
Proof. by destruct a. Qed.
Lemma append_one_nil c : go_append None [Some c] = Some c.
Proof. done. Qed.
Lemma append_nil_r a : go_append a [None] = a.
Proof. done. Qed.

(** Folding [Append] over a list the way the evaluator does. *)
Definition fold_append (start : option content) (l : list content) : option content :=
  fold_left (λ acc c, go_append acc [Some c]) l start.

Lemma fold_append_seq v l : fold_append (Some (CSeq v)) l = Some (CSeq (v ++ l)).
Proof.
  revert v. induction l as [|c l IH]; intros v; simpl; [by rewrite app_nil_r|].
  unfold fold_append in IH |- *. simpl. rewrite IH. by rewrite <- app_assoc.
Qed.

Lemma fold_append_spec l :
  fold_append None l =
    match l with
    | [] => None
    | [c] => Some c
    | c :: r => Some (CSeq (elements (Some c) ++ r))
    end.
Proof.
  destruct l as [|c [|d l]]; [done|done|].
  change (fold_append None (c :: d :: l)) with (fold_append (go_append (Some c) [Some d]) l).
  rewrite append_one_some, fold_append_seq, <- app_assoc. done.
Qed.

Lemma append_variadic_drops a b c r : go_append (Some a) (Some b :: Some c :: r) = go_append (Some a) [Some b].
Proof. by destruct a. Qed.

(** ** C24 *)

Definition keep (l : list content) : list content := List.filter (λ x, negb (is_aux x)) l.

Definition strip_list (l : list content) : option (list content) := mapM strip_aux (keep l).

Lemma strip_seq_eq l :
  (fix strip_seq (l : list content) : option (list content) :=
    match l with
    | [] => Some []
    | x :: r =>
      if is_aux x then strip_seq r
      else match strip_aux x with
           | Some x' => match strip_seq r with
                        | Some r' => Some (x' :: r')
                        | None => None
                        end
           | None => None
           end
    end) l = strip_list l.
Proof.
  unfold strip_list, keep. induction l as [|x l IH]; [done|]. rewrite IH. simpl.
  destruct (is_aux x); simpl; [done|]. destruct (strip_aux x); simpl; [|done].
  by destruct (mapM _ _).
Qed.

Lemma strip_aux_seq l : strip_aux (CSeq l) = CSeq <$> strip_list l.
Proof. rewrite <- strip_seq_eq. simpl. by destruct (_ l). Qed.
Lemma strip_aux_para l : strip_aux (CPara l) = CPara <$> strip_list l.
Proof. rewrite <- strip_seq_eq. simpl. by destruct (_ l). Qed.
Lemma strip_aux_pre l : strip_aux (CPre l) = CPre <$> strip_list l.
Proof. rewrite <- strip_seq_eq. simpl. by destruct (_ l). Qed.
Lemma strip_aux_list l o : strip_aux (CList l o) = (λ l, CList l o) <$> strip_list l.
Proof. rewrite <- strip_seq_eq. simpl. by destruct (_ l). Qed.

Lemma strip_aux_table rows : strip_aux (CTable rows) = CTable <$> mapM strip_list rows.
Proof.
  simpl.
  match goal with |- match ?f rows with _ => _ end = _ => assert (f rows = mapM strip_list rows) as -> end.
  { induction rows as [|r rows IH]; [done|]. rewrite IH. rewrite strip_seq_eq. simpl.
    destruct (strip_list r); simpl; [|done]. by destruct (mapM _ _). }
  by destruct (mapM _ _).
Qed.

Definition strip_def (p : content * content) : option (content * content) :=
  s ← strip_aux (fst p); d ← strip_aux (snd p); Some (s, d).

Lemma strip_aux_defs defs : strip_aux (CDefs defs) = CDefs <$> mapM strip_def defs.
Proof.
  simpl.
  match goal with |- match ?f defs with _ => _ end = _ => assert (f defs = mapM strip_def defs) as -> end.
  { induction defs as [|[s d] defs IH]; [done|]. rewrite IH. simpl. unfold strip_def. simpl.
    destruct (strip_aux s); simpl; [|done]. destruct (strip_aux d); simpl; [|done]. by destruct (mapM _ _). }
  by destruct (mapM _ _).
Qed.

Lemma strip_def_pair s d : strip_def (s, d) = s' ← strip_aux s; d' ← strip_aux d; Some (s', d').
Proof. done. Qed.

Definition has_value (p : string * option content) : bool :=
  match snd p with Some _ => true | None => false end.
Definition strip_partial (p : string * option content) : option (string * option content) :=
  v ← snd p; v' ← strip_aux v; Some (fst p, Some v').

Lemma strip_partial_some k v : strip_partial (k, Some v) = v' ← strip_aux v; Some (k, Some v').
Proof. done. Qed.

Lemma strip_aux_styled st b x ps :
  strip_aux (CStyled st b x ps) =
    x' ← strip_aux x; ps' ← mapM strip_partial (List.filter has_value ps); Some (CStyled st b x' ps').
Proof.
  simpl. destruct (strip_aux x) as [x'|]; simpl; [|done].
  match goal with |- match ?f ps with _ => _ end = _ =>
    assert (f ps = mapM strip_partial (List.filter has_value ps)) as -> end.
  { induction ps as [|[k [v|]] ps IH]; [done| |].
    - rewrite IH. simpl. unfold strip_partial. simpl. destruct (strip_aux v); simpl; [|done]. by destruct (mapM _ _).
    - rewrite IH. done. }
  by destruct (mapM _ _).
Qed.

Global Arguments strip_aux : simpl never.
Lemma strip_aux_string s : strip_aux (CString s) = Some (CString s). Proof. done. Qed.
Lemma strip_aux_section s : strip_aux (CSection s) = Some (CSection s). Proof. done. Qed.
Lemma strip_aux_toc s : strip_aux (CToc s) = Some (CToc s). Proof. done. Qed.
Lemma strip_aux_image p d : strip_aux (CImage p d) = Some (CImage p d). Proof. done. Qed.
Lemma strip_aux_lazy b t : strip_aux (CLazy b t) = Some (CLazy b t). Proof. done. Qed.
Lemma strip_aux_aux x : strip_aux (CAux x) = strip_aux x. Proof. done. Qed.
Lemma strip_aux_link x t : strip_aux (CLink x t) = (λ x, CLink x t) <$> strip_aux x.
Proof. unfold strip_aux at 1. fold strip_aux. by destruct (strip_aux x). Qed.
Lemma strip_aux_ref s t rc o l :
  strip_aux (CRef s t rc o l) = c ← rc; c' ← strip_aux c; Some (CRef s t (Some c') o l).
Proof. unfold strip_aux at 1. fold strip_aux. destruct rc as [c|]; [|done]. simpl. by destruct (strip_aux c). Qed.
Lemma strip_aux_target t l ti x :
  strip_aux (CTarget t l ti x) =
    a ← ti; a' ← strip_aux a; b ← x; b' ← strip_aux b; Some (CTarget t l (Some a') (Some b')).
Proof.
  unfold strip_aux at 1. fold strip_aux. destruct ti as [a|]; [|done]. simpl.
  destruct (strip_aux a); [|done]. simpl. destruct x as [y|]; [|done]. simpl. by destruct (strip_aux y).
Qed.

Ltac strip_rw :=
  rewrite ?strip_aux_seq, ?strip_aux_para, ?strip_aux_pre, ?strip_aux_list, ?strip_aux_table,
    ?strip_aux_defs, ?strip_aux_styled, ?strip_aux_string, ?strip_aux_section, ?strip_aux_toc,
    ?strip_aux_image, ?strip_aux_lazy, ?strip_aux_aux, ?strip_aux_link, ?strip_aux_ref, ?strip_aux_target.

(** A property of single contents carried to lists. *)
Lemma mapM_Forall2 {A B} (f : A → option B) l l' : mapM f l = Some l' → Forall2 (λ x y, f x = Some y) l l'.
Proof. apply mapM_Some_1. Qed.

Definition StripP (R : content → content → Prop) (c : content) : Prop :=
  ∀ c', strip_aux c = Some c' → R c c'.

Lemma strip_list_Forall2 R l l' : Forall (StripP R) l → strip_list l = Some l' →
  Forall2 R (keep l) l'.
Proof.
  intros H E. apply mapM_Some_1 in E. unfold keep in *.
  assert (Forall (StripP R) (List.filter (λ x, negb (is_aux x)) l)) as H'.
  { apply Forall_forall. intros x Hx. apply elem_of_list_In, filter_In in Hx as [Hx _].
    rewrite Forall_forall in H. by apply H, elem_of_list_In. }
  clear H. induction E; constructor; inversion H'; subst; auto.
Qed.

Lemma strip_no_aux c : StripP (λ _ c', no_aux c' = true) c.
Proof.
  induction c as [s|l IH|l IH|l IH|sec t rc o l IH|c t IH|s|s|st b c ps IH IHps|t l ti x IHt IHx|p d|l o IH|rows IH|defs IH|b t|c IH]
    using content_ind'; intros c' E; revert E; strip_rw; try (intros [= <-]; done).
  1-3,8: intros E; apply fmap_Some in E as (l' & El & ->); simpl;
    pose proof (strip_list_Forall2 _ _ _ IH El) as F;
    clear -F; induction F as [|? ? ? ? Hx]; simpl; [done|]; by rewrite Hx.
  - destruct rc as [rc|]; simpl; [|done]. destruct (strip_aux rc) eqn:E; simpl; [|done].
    intros [= <-]. simpl. by apply IH.
  - intros E. apply fmap_Some in E as (x & Ex & ->). simpl. by apply IH.
  - destruct (strip_aux c) eqn:E; simpl; [|done]. destruct (mapM _ _) as [ps'|] eqn:Eps; simpl; [|done].
    intros [= <-]. simpl. rewrite (IH _ E). simpl. apply mapM_Some_1 in Eps.
    assert (Forall (λ p, optP (StripP (λ _ c', no_aux c' = true)) p.2) (List.filter has_value ps)) as H'.
    { apply Forall_forall. intros q Hq. apply elem_of_list_In, filter_In in Hq as [Hq _].
      rewrite Forall_forall in IHps. by apply IHps, elem_of_list_In. }
    clear IHps. induction Eps as [|q q' qs qs' Hq _ IHq]; simpl; [done|].
    inversion H'; subst. rewrite IHq by done. unfold strip_partial in Hq.
    destruct q as [k [v|]]; simpl in *; [|done]. destruct (strip_aux v) eqn:Ev; simpl in Hq; [|done].
    injection Hq as <-. rewrite andb_true_r. auto.
  - destruct ti as [a|]; simpl; [|done]. destruct (strip_aux a) eqn:Ea; simpl; [|done].
    destruct x as [y|]; simpl; [|done]. destruct (strip_aux y) eqn:Ey; simpl; [|done].
    intros [= <-]. simpl. rewrite (IHt _ Ea), (IHx _ Ey). done.
  - intros E. apply fmap_Some in E as (rs & Er & ->). simpl. apply mapM_Some_1 in Er.
    induction Er as [|r r' rs rs' Hr _ IHr]; simpl; [done|]. inversion IH; subst.
    rewrite IHr by done. rewrite andb_true_r.
    match goal with H : Forall _ r |- _ => pose proof (strip_list_Forall2 _ _ _ H Hr) as F end.
    clear -F; induction F as [|? ? ? ? Hx]; simpl; [done|]; by rewrite Hx.
  - intros E. apply fmap_Some in E as (ds & Ed & ->). simpl. apply mapM_Some_1 in Ed.
    induction Ed as [|r r' rs rs' Hr _ IHr]; simpl; [done|].
    inversion IH as [|? ? [H1 H2] H3]; subst.
    rewrite IHr by done. rewrite andb_true_r. unfold strip_def in Hr.
    destruct (strip_aux r.1) eqn:E1; simpl in Hr; [|done].
    destruct (strip_aux r.2) eqn:E2; simpl in Hr; [|done]. injection Hr as <-.
    by rewrite (H1 _ E1), (H2 _ E2).
  - exact (IH c').
Qed.

(** Leaves. *)
Lemma keep_flat_map drop (l : list content) :
  flat_map (λ x, if is_aux x then [] else leaves drop x) l = flat_map (leaves drop) (keep l).
Proof.
  induction l as [|x l IH]; [done|]. simpl. unfold keep in *. simpl. destruct (is_aux x); simpl; [done|].
  by rewrite IH.
Qed.

Lemma Forall2_leaves l l' : Forall2 (λ c c', leaves false c' = leaves true c) l l' →
  flat_map (leaves false) l' = flat_map (leaves true) l.
Proof. induction 1 as [|? ? ? ? Hx _ IH]; simpl; [done|]. by rewrite Hx, IH. Qed.

Lemma strip_leaves c : StripP (λ c c', leaves false c' = leaves true c) c.
Proof.
  induction c as [s|l IH|l IH|l IH|sec t rc o l IH|c t IH|s|s|st b c ps IH IHps|t l ti x IHt IHx|p d|l o IH|rows IH|defs IH|b t|c IH]
    using content_ind'; intros c' E; revert E; strip_rw; try (intros [= <-]; done).
  1-3,8: intros E; apply fmap_Some in E as (l' & El & ->); simpl;
    rewrite (keep_flat_map true); apply Forall2_leaves;
    by apply strip_list_Forall2.
  - destruct rc as [rc|]; simpl; [|done]. destruct (strip_aux rc) eqn:E; simpl; [|done].
    intros [= <-]. simpl. by apply IH.
  - intros E. apply fmap_Some in E as (x & Ex & ->). simpl. by apply IH.
  - destruct (strip_aux c) eqn:E; simpl; [|done]. destruct (mapM _ _) as [ps'|] eqn:Eps; simpl; [|done].
    intros [= <-]. simpl. rewrite (IH _ E). f_equal. clear E.
    revert ps' Eps. induction IHps as [|[k [v|]] ps Hv _ IHq]; intros ps' Eps; simpl in *.
    + injection Eps as <-. done.
    + rewrite strip_partial_some in Eps. destruct (strip_aux v) as [v'|] eqn:Ev; simpl in Eps; [|done].
      destruct (mapM _ _) as [ps''|] eqn:E2; simpl in Eps; [|done]. injection Eps as <-. simpl.
      rewrite (Hv _ Ev). f_equal. by apply IHq.
    + by apply IHq.
  - destruct ti as [a|]; simpl; [|done]. destruct (strip_aux a) eqn:Ea; simpl; [|done].
    destruct x as [y|]; simpl; [|done]. destruct (strip_aux y) eqn:Ey; simpl; [|done].
    intros [= <-]. simpl. rewrite (IHt _ Ea), (IHx _ Ey). done.
  - intros E. apply fmap_Some in E as (rs & Er & ->). simpl. apply mapM_Some_1 in Er.
    induction Er as [|r r' rs rs' Hr _ IHr]; simpl; [done|]. inversion IH; subst.
    f_equal; [|by apply IHr].
    rewrite (keep_flat_map true r). apply Forall2_leaves.
    by apply strip_list_Forall2.
  - intros E. apply fmap_Some in E as (ds & Ed & ->). simpl. apply mapM_Some_1 in Ed.
    induction Ed as [|r r' rs rs' Hr _ IHr]; simpl; [done|].
    inversion IH as [|? ? [H1 H2] H3]; subst. destruct r as [s d]. simpl in *.
    unfold strip_def in Hr. simpl in Hr.
    destruct (strip_aux s) eqn:E1; simpl in Hr; [|done].
    destruct (strip_aux d) eqn:E2; simpl in Hr; [|done]. injection Hr as <-.
    rewrite (H1 _ E1), (H2 _ E2). f_equal. by apply IHr.
  - exact (IH c').
Qed.

(** Identity on content without Aux and without nil. *)
Lemma keep_no_aux l : forallb no_aux l = true → keep l = l.
Proof.
  unfold keep. induction l as [|x l IH]; simpl; [done|]. rewrite andb_true_iff. intros [Hx Hl].
  destruct x; simpl in *; try done; by rewrite IH.
Qed.

Lemma strip_list_id l : Forall (λ c, no_aux c = true → no_nil c = true → strip_aux c = Some c) l →
  forallb no_aux l = true → forallb no_nil l = true → strip_list l = Some l.
Proof.
  intros H Ha Hn. unfold strip_list. rewrite keep_no_aux by done.
  induction H as [|x l Hx _ IH]; simpl in *; [done|].
  apply andb_true_iff in Ha as [? ?]. apply andb_true_iff in Hn as [? ?].
  rewrite Hx by done. simpl. by rewrite IH.
Qed.

Lemma strip_id c : no_aux c = true → no_nil c = true → strip_aux c = Some c.
Proof.
  induction c as [s|l IH|l IH|l IH|sec t rc o l IH|c t IH|s|s|st b c ps IH IHps|t l ti x IHt IHx|p d|l o IH|rows IH|defs IH|b t|c IH]
    using content_ind'; strip_rw; simpl; intros Ha Hn; try done.
  1-3,8: by rewrite strip_list_id.
  - destruct rc as [rc|]; [|done]. simpl in *. by rewrite IH.
  - by rewrite IH.
  - apply andb_true_iff in Ha as [Ha1 Ha2]. apply andb_true_iff in Hn as [Hn1 Hn2].
    rewrite IH by done. simpl.
    assert (mapM strip_partial (List.filter has_value ps) = Some ps) as ->; [|done].
    induction IHps as [|[k [v|]] ps Hv _ IHq]; simpl in *; [done| |done].
    apply andb_true_iff in Ha2 as [? ?]. apply andb_true_iff in Hn2 as [? ?].
    rewrite strip_partial_some, Hv by done. simpl. rewrite IHq by done. done.
  - destruct ti as [a|]; [|done]. destruct x as [y|]; [|by rewrite andb_false_r in Hn].
    simpl in *. apply andb_true_iff in Ha as [? ?]. apply andb_true_iff in Hn as [? ?].
    rewrite IHt by done. simpl. rewrite IHx by done. done.
  - assert (mapM strip_list rows = Some rows) as ->; [|done].
    induction IH as [|r rows Hr _ IHr]; simpl in *; [done|].
    apply andb_true_iff in Ha as [? ?]. apply andb_true_iff in Hn as [? ?].
    rewrite strip_list_id by done. simpl. by rewrite IHr.
  - assert (mapM strip_def defs = Some defs) as ->; [|done].
    induction IH as [|[s d] defs [H1 H2] _ IHr]; simpl in *; [done|].
    rewrite !andb_true_iff in Ha, Hn. destruct Ha as [[? ?] ?]. destruct Hn as [[? ?] ?].
    rewrite strip_def_pair, H1, H2 by done. simpl. by rewrite IHr.
Qed.

(** The result has no nil, so StripAux is idempotent. *)
Lemma strip_no_nil c : StripP (λ _ c', no_nil c' = true) c.
Proof.
  induction c as [s|l IH|l IH|l IH|sec t rc o l IH|c t IH|s|s|st b c ps IH IHps|t l ti x IHt IHx|p d|l o IH|rows IH|defs IH|b t|c IH]
    using content_ind'; intros c' E; revert E; strip_rw; try (intros [= <-]; done).
  1-3,8: intros E; apply fmap_Some in E as (l' & El & ->); simpl;
    pose proof (strip_list_Forall2 _ _ _ IH El) as F;
    clear -F; induction F as [|? ? ? ? Hx]; simpl; [done|]; by rewrite Hx.
  - destruct rc as [rc|]; simpl; [|done]. destruct (strip_aux rc) eqn:E; simpl; [|done].
    intros [= <-]. simpl. by apply IH.
  - intros E. apply fmap_Some in E as (x & Ex & ->). simpl. by apply IH.
  - destruct (strip_aux c) eqn:E; simpl; [|done]. destruct (mapM _ _) as [ps'|] eqn:Eps; simpl; [|done].
    intros [= <-]. simpl. rewrite (IH _ E). simpl. apply mapM_Some_1 in Eps.
    assert (Forall (λ p, optP (StripP (λ _ c', no_nil c' = true)) p.2) (List.filter has_value ps)) as H'.
    { apply Forall_forall. intros q Hq. apply elem_of_list_In, filter_In in Hq as [Hq _].
      rewrite Forall_forall in IHps. by apply IHps, elem_of_list_In. }
    clear IHps. induction Eps as [|q q' qs qs' Hq _ IHq]; simpl; [done|].
    inversion H'; subst. rewrite IHq by done. unfold strip_partial in Hq.
    destruct q as [k [v|]]; simpl in *; [|done]. destruct (strip_aux v) eqn:Ev; simpl in Hq; [|done].
    injection Hq as <-. rewrite andb_true_r. auto.
  - destruct ti as [a|]; simpl; [|done]. destruct (strip_aux a) eqn:Ea; simpl; [|done].
    destruct x as [y|]; simpl; [|done]. destruct (strip_aux y) eqn:Ey; simpl; [|done].
    intros [= <-]. simpl. rewrite (IHt _ Ea), (IHx _ Ey). done.
  - intros E. apply fmap_Some in E as (rs & Er & ->). simpl. apply mapM_Some_1 in Er.
    induction Er as [|r r' rs rs' Hr _ IHr]; simpl; [done|]. inversion IH; subst.
    rewrite IHr by done. rewrite andb_true_r.
    match goal with H : Forall _ r |- _ => pose proof (strip_list_Forall2 _ _ _ H Hr) as F end.
    clear -F; induction F as [|? ? ? ? Hx]; simpl; [done|]; by rewrite Hx.
  - intros E. apply fmap_Some in E as (ds & Ed & ->). simpl. apply mapM_Some_1 in Ed.
    induction Ed as [|r r' rs rs' Hr _ IHr]; simpl; [done|].
    inversion IH as [|? ? [H1 H2] H3]; subst.
    rewrite IHr by done. rewrite andb_true_r. unfold strip_def in Hr.
    destruct (strip_aux r.1) eqn:E1; simpl in Hr; [|done].
    destruct (strip_aux r.2) eqn:E2; simpl in Hr; [|done]. injection Hr as <-.
    by rewrite (H1 _ E1), (H2 _ E2).
  - exact (IH c').
Qed.

Lemma strip_idempotent c c' : strip_aux c = Some c' → strip_aux c' = Some c'.
Proof. intros E. apply strip_id; [by eapply strip_no_aux|by eapply strip_no_nil]. Qed.

(** When StripAux crashes. *)
Lemma strip_list_total l : Forall (λ c, is_Some (strip_aux c) ↔ strippable c = true) l →
  is_Some (strip_list l) ↔ forallb (λ x, is_aux x || strippable x) l = true.
Proof.
  unfold strip_list, keep. induction 1 as [|x l Hx _ IH]; simpl; [split; [done|eauto]|].
  destruct (is_aux x); simpl; [done|]. rewrite andb_true_iff, <- Hx, <- IH.
  destruct (strip_aux x); simpl; [|split; [intros [? [=]]|intros [[? [=]] _]]].
  destruct (mapM _ _); simpl; [split; eauto|]. split; [intros [? [=]]|intros [_ [? [=]]]].
Qed.

Lemma is_Some_fmap {A B} (f : A → B) (o : option A) : is_Some (f <$> o) ↔ is_Some o.
Proof. apply fmap_is_Some. Qed.

Lemma strip_total c : is_Some (strip_aux c) ↔ strippable c = true.
Proof.
  induction c as [s|l IH|l IH|l IH|sec t rc o l IH|c t IH|s|s|st b c ps IH IHps|t l ti x IHt IHx|p d|l o IH|rows IH|defs IH|b t|c IH]
    using content_ind'; strip_rw; simpl; try (split; [done|eauto]; fail).
  1-3,8: by rewrite is_Some_fmap, strip_list_total.
  - destruct rc as [rc|]; simpl; [|split; [intros [? [=]]|done]]. simpl in IH. rewrite <- IH.
    destruct (strip_aux rc); simpl; split; eauto; intros [? [=]].
  - by rewrite is_Some_fmap.
  - rewrite andb_true_iff, <- IH.
    assert (is_Some (mapM strip_partial (List.filter has_value ps)) ↔
      forallb (λ p, match p with (_, Some v) => strippable v | (_, None) => true end) ps = true) as <-.
    { induction IHps as [|[k [v|]] ps Hv _ IHq]; simpl; [split; eauto| |done].
      rewrite andb_true_iff, <- IHq. simpl in Hv. rewrite <- Hv, strip_partial_some.
      destruct (strip_aux v); simpl; [|split; [intros [? [=]]|intros [[? [=]] _]]].
      destruct (mapM _ _); simpl; [split; eauto|]. split; [intros [? [=]]|intros [_ [? [=]]]]. }
    destruct (strip_aux c); simpl; [|split; [intros [? [=]]|intros [[? [=]] _]]].
    destruct (mapM _ _); simpl; [split; eauto|]. split; [intros [? [=]]|intros [_ [? [=]]]].
  - destruct ti as [a|]; simpl; [|split; [intros [? [=]]|done]].
    simpl in IHt. rewrite andb_true_iff, <- IHt.
    destruct (strip_aux a); simpl; [|split; [intros [? [=]]|intros [[? [=]] _]]].
    destruct x as [y|]; simpl; [|split; [intros [? [=]]|intros [_ [=]]]].
    simpl in IHx. rewrite <- IHx. destruct (strip_aux y); simpl; [split; eauto|].
    split; [intros [? [=]]|intros [_ [? [=]]]].
  - rewrite is_Some_fmap. induction IH as [|r rows Hr _ IHr]; simpl; [split; eauto|].
    rewrite andb_true_iff, <- IHr, <- (strip_list_total _ Hr).
    destruct (strip_list r); simpl; [|split; [intros [? [=]]|intros [[? [=]] _]]].
    destruct (mapM _ _); simpl; [split; eauto|]. split; [intros [? [=]]|intros [_ [? [=]]]].
  - rewrite is_Some_fmap. induction IH as [|[s d] defs [H1 H2] _ IHr]; simpl; [split; eauto|].
    simpl in H1, H2. rewrite !andb_true_iff, <- IHr, <- H1, <- H2, strip_def_pair.
    destruct (strip_aux s); simpl; [|split; [intros [? [=]]|intros [[[? [=]] _] _]]].
    destruct (strip_aux d); simpl; [|split; [intros [? [=]]|intros [[_ [? [=]]] _]]].
    destruct (mapM _ _); simpl; [split; eauto|]. split; [intros [? [=]]|intros [_ [? [=]]]].
  - done.
Qed.
