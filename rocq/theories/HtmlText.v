(** Text is shown as it is. *)
From Coq Require Import Ascii String Lia.
From stdpp Require Import base tactics strings list.
From Verif Require Import GoBase StrProofs Ast Content Section Render ContentProofs Html HtmlSpec HtmlProofs HtmlLoad.
Local Open Scope string_scope.
Local Open Scope list_scope.

(** ** What there is to show *)

Definition space (c : ascii) : bool := Ascii.eqb c " " || Ascii.eqb c "010" || Ascii.eqb c "009" || Ascii.eqb c "013".

(** The characters other than white space. *)
Fixpoint ink (s : string) : string :=
  match s with "" => "" | String c s => if space c then ink s else String c (ink s) end.

(** The text between the tags. *)
Fixpoint chars (ts : list token) : string :=
  match ts with [] => "" | TChar c :: ts => String c (chars ts) | _ :: ts => chars ts end.

(** Contents that consist of what they contain, and the text they contain. *)
Fixpoint textual (c : content) : bool :=
  match c with
  | CString _ | CTarget _ _ _ _ | CImage _ _ => true
  | CSeq l | CPara l | CPre l | CList l _ => forallb textual l
  | CLink c _ | CAux c => textual c
  | CStyled st _ c _ =>
    bool_decide (st ∈ ["aside"; "bold"; "inset"; "italic"; "larger"; "smaller"; "strike"; "subscript"; "superscript"; "verbatim"])
      && textual c
  | CTable rows => forallb (forallb textual) rows
  | CDefs defs => forallb (λ p, match p with (s, d) => textual s && textual d end) defs
  | CRef _ _ _ _ _ | CSection _ | CToc _ | CLazy _ _ => false
  end.
Fixpoint written (c : content) : string :=
  match c with
  | CString s => s
  | CSeq l | CPara l | CPre l | CList l _ => sconcat (map written l)
  | CLink c _ | CAux c | CStyled _ _ c _ => written c
  | CTable rows => sconcat (map (λ r, sconcat (map written r)) rows)
  | CDefs defs => sconcat (map (λ p, match p with (s, d) => written s +:+ written d end) defs)
  | CTarget _ _ _ _ | CImage _ _ | CRef _ _ _ _ _ | CSection _ | CToc _ | CLazy _ _ => ""
  end.

(** ** Proof *)

Lemma ink_app a b : ink (a +:+ b) = ink a +:+ ink b.
Proof. induction a as [|c a IH]; [done|]. cbn [append ink]. destruct (space c); [done|]. by rewrite IH. Qed.
Lemma chars_app a b : chars (a ++ b) = chars a +:+ chars b.
Proof. induction a as [|[] a IH]; cbn [app chars append]; by rewrite ?IH. Qed.
Lemma chars_map s : chars (map TChar (list_ascii_of_string s)) = s.
Proof. induction s as [|c s IH]; [done|]. cbn. by f_equal. Qed.

Definition inks (out t : string) : Prop := ∃ ts, read SText out = Some (SText, ts) ∧ ink (chars ts) = ink (unnul t).

Lemma inks_app a b s t : inks a s → inks b t → inks (a +:+ b) (s +:+ t).
Proof.
  intros (ts & H1 & H2) (ts' & H1' & H2'). exists (ts ++ ts'). split; [by eapply read_app|].
  by rewrite chars_app, unnul_app, !ink_app, H2, H2'.
Qed.
Lemma inks_lit a b t : (match read SText a with Some (SText, ts) => String.eqb (ink (chars ts)) "" | _ => false end) = true →
  inks b t → inks (a +:+ b) t.
Proof.
  intros H. apply (inks_app a b "" t). destruct (read SText a) as [[[] ts]|] eqn:E; try done. exists ts. split; [done|].
  by apply String.eqb_eq in H.
Qed.
Lemma inks_end a b t : (match read SText b with Some (SText, ts) => String.eqb (ink (chars ts)) "" | _ => false end) = true →
  inks a t → inks (a +:+ b) t.
Proof.
  intros H G. rewrite <- (sapp_nil_r t). apply inks_app; [done|].
  destruct (read SText b) as [[[] ts]|] eqn:E; try done. exists ts. split; [done|]. by apply String.eqb_eq in H.
Qed.
Lemma inks_only b : (match read SText b with Some (SText, ts) => String.eqb (ink (chars ts)) "" | _ => false end) = true →
  inks b "".
Proof. intros H. rewrite <- (sapp_nil_r b). apply inks_lit; [done|]. by exists []. Qed.
Lemma inks_escape s : inks (escape s) s.
Proof. eexists. split; [apply read_escape|]. by rewrite chars_map. Qed.

Lemma inks_concat l ts : Forall2 inks l ts → inks (sconcat l) (sconcat ts).
Proof. induction 1; cbn [sconcat]; [by exists []|by apply inks_app]. Qed.
Lemma inks_concat_map {A} (f : A → string) l (ts : list string) : Forall2 (λ x t, inks (f x) t) l ts → inks (sconcat (map f l)) (sconcat ts).
Proof. intros F. apply inks_concat. induction F; constructor; done. Qed.
Lemma inks_join sep l ts : (match read SText sep with Some (SText, ts) => String.eqb (ink (chars ts)) "" | _ => false end) = true →
  Forall2 inks l ts → inks (sjoin sep l) (sconcat ts).
Proof.
  intros Hs. induction 1 as [|x t l ts Hx F IH]; [by exists []|]. destruct F as [|y u l ts Hy F].
  - cbn [sjoin sconcat]. by rewrite sapp_nil_r.
  - rewrite sjoin_cons. apply inks_app; [done|]. by apply inks_lit.
Qed.
Lemma inks_href u s t : inks s t → inks ("<a href=""" +:+ url_attr u +:+ """>" +:+ s +:+ "</a>") t.
Proof.
  intros H. assert ("<a href=""" +:+ url_attr u +:+ """>" +:+ s +:+ "</a>" = ("<a href=""" +:+ url_attr u +:+ """>") +:+ (s +:+ "</a>")) as ->
    by by rewrite !sapp_assoc.
  apply (inks_app _ _ "" t); [|by apply inks_end].
  eexists. split; [eapply read_app; [reflexivity|]; eapply read_app; [apply read_escape_value|reflexivity]|reflexivity].
Qed.
Lemma inks_id v : inks ("<a id=""" +:+ escape v +:+ """></a>") "".
Proof. eexists. split; [eapply read_app; [reflexivity|]; eapply read_app; [apply read_escape_value|reflexivity]|reflexivity]. Qed.
Lemma inks_img u d : inks ("<img src=""" +:+ url_attr u +:+ """ alt=""" +:+ escape d +:+ """ />") "".
Proof.
  eexists. split.
  - eapply read_app; [reflexivity|]. eapply read_app; [apply read_escape_value|].
    eapply read_app; [reflexivity|]. eapply read_app; [apply read_escape_value|reflexivity].
  - reflexivity.
Qed.

Lemma inks_styled st flow : st ∈ ["aside"; "bold"; "inset"; "italic"; "larger"; "smaller"; "strike"; "subscript"; "superscript"; "verbatim"] →
  ∃ pre post, styled_wrap st flow = Some (pre, post) ∧ ∀ s t, inks s t → inks (pre +:+ s +:+ post) t.
Proof.
  rewrite !elem_of_cons, elem_of_nil.
  intros [->|[->|[->|[->|[->|[->|[->|[->|[->|[->|[]]]]]]]]]]]; cbn; try destruct flow; do 2 eexists; (split; [reflexivity|]);
    intros s t H; (apply inks_lit; [vm_compute; reflexivity|]); (apply inks_end; [vm_compute; reflexivity|done]).
Qed.
Ltac piece := first [apply inks_lit; [vm_compute; reflexivity|]|apply inks_only; vm_compute; reflexivity].
Lemma inks_list o l ts : Forall2 inks l ts → inks (list_html o l) (sconcat ts).
Proof.
  intros F. assert (inks (sconcat (map (λ s, nls +:+ "  <li>" +:+ s +:+ "</li>" +:+ nls) l)) (sconcat ts)) as G.
  { apply inks_concat_map. eapply Forall2_impl; [exact F|]. intros s t H. do 2 piece. apply inks_end; [vm_compute; reflexivity|done]. }
  unfold list_html. destruct o.
  - change (inks (("<ol>" +:+ nls) +:+ (sconcat (map (λ s, nls +:+ "  <li>" +:+ s +:+ "</li>" +:+ nls) l) +:+ (nls +:+ "</ol>"))) (sconcat ts)).
    piece. by apply inks_end.
  - change (inks (("<ul>" +:+ nls) +:+ (sconcat (map (λ s, nls +:+ "  <li>" +:+ s +:+ "</li>" +:+ nls) l) +:+ (nls +:+ "</ul>"))) (sconcat ts)).
    piece. by apply inks_end.
Qed.
Lemma inks_table rows tss : Forall2 (Forall2 inks) rows tss → inks (table_html rows) (sconcat (map sconcat tss)).
Proof.
  intros F. unfold table_html. do 3 piece. apply inks_end; [vm_compute; reflexivity|].
  apply inks_concat_map. induction F as [|row ts rows tss Hr F IH]; constructor; [|done].
  do 4 piece. apply inks_end; [vm_compute; reflexivity|].
  apply inks_concat_map. eapply Forall2_impl; [exact Hr|]. intros s t H. do 2 piece. apply inks_end; [vm_compute; reflexivity|done].
Qed.
Lemma inks_defs defs ts : Forall2 (λ p q, inks (fst p) (fst q) ∧ inks (snd p) (snd q)) defs ts →
  inks (defs_html defs) (sconcat (map (λ q, fst q +:+ snd q) ts)).
Proof.
  intros F. unfold defs_html. do 3 piece. apply inks_end; [vm_compute; reflexivity|].
  apply inks_concat_map. induction F as [|[s d] [u v] defs ts [Hs Hd] F IH]; constructor; [|done].
  do 2 piece. apply inks_app; [done|]. do 3 piece. apply inks_end; [vm_compute; reflexivity|done].
Qed.

Section text.
  Context (similar : string → string → bool) (broken : bool) (h : heap).
  Context (force : nat → option content) (str : content → outcome error string).

  Lemma omapM_inks (f : content → rendered) l : Forall (λ c, textual c = true → ∃ out, f c = Ok out ∧ inks out (written c)) l →
    forallb textual l = true → ∃ ss, omapM f l = Ok ss ∧ Forall2 inks ss (map written l).
  Proof.
    induction 1 as [|c l Hc _ IH]; [intros _; exists []; split; [done|constructor]|]. cbn [forallb]. intros [H1 H2]%andb_true_iff.
    destruct (Hc H1) as (o & E & Ho). destruct (IH H2) as (ss & Es & F). exists (o :: ss). split; [|by constructor].
    change (omapM f (c :: l)) with (obind (λ y, obind (λ ys, Ok (y :: ys)) (omapM f l)) (f c)). by rewrite E, Es.
  Qed.

  Lemma html_F_text jump c : textual c = true → ∃ out, html_F similar broken h force str jump c = Ok out ∧ inks out (written c).
  Proof.
    induction c as [s|l IH|l IH|l IH|sec t rc o l IH|c t IH|s|s|st b c ps IH IHps|t l ti x IHt IHx|p d|l o IH|rows IH|defs IH|b t|c IH]
      using content_ind'; intros C; cbn [html_F textual written] in *; try done.
    - eexists. split; [done|]. apply inks_escape.
    - destruct (omapM_inks _ _ IH C) as (ss & -> & F). eexists. split; [done|]. by apply inks_concat.
    - destruct (omapM_inks _ _ IH C) as (ss & -> & F). eexists. split; [done|].
      apply (inks_lit "<p>"); [reflexivity|]. apply inks_end; [reflexivity|]. by apply inks_join.
    - destruct (omapM_inks _ _ IH C) as (ss & -> & F). eexists. split; [done|]. by apply inks_join.
    - destruct (IH C) as (s & -> & F). eexists. split; [done|]. by apply inks_href.
    - apply andb_true_iff in C as [C1%bool_decide_eq_true C2]. destruct (IH C2) as (s & -> & F).
      destruct (inks_styled st (is_flow (CStyled st b c ps)) C1) as (pre & post & -> & H). eexists. split; [done|]. by apply H.
    - eexists. split; [done|]. apply inks_id.
    - eexists. split; [done|]. apply inks_img.
    - destruct (omapM_inks _ _ IH C) as (ss & -> & F). eexists. split; [done|]. by apply inks_list.
    - assert (∃ rs, omapM (λ row, omapM (html_F similar broken h force str jump) row) rows = Ok rs ∧
        Forall2 (Forall2 inks) rs (map (map written) rows)) as (rs & -> & F).
      { induction IH as [|r rows Hr _ IHr]; [exists []; split; [done|constructor]|]. cbn [forallb] in C. apply andb_true_iff in C as [C1 C2].
        destruct (omapM_inks _ _ Hr C1) as (ss & E & F). destruct (IHr C2) as (rs & Er & Fr).
        exists (ss :: rs). split; [|by constructor].
        match goal with |- omapM ?f (?c :: ?l) = _ =>
          change (omapM f (c :: l)) with (obind (λ y, obind (λ ys, Ok (y :: ys)) (omapM f l)) (f c)) end.
        rewrite Er. cbv beta. by rewrite E. }
      eexists. split; [done|]. replace (map (λ r, sconcat (map written r)) rows) with (map sconcat (map (map written) rows)).
      + by apply inks_table.
      + rewrite map_map. done.
    - assert (∃ ds, omapM (λ p : content * content, match p with (s, d) => obind (λ s, obind (λ d, Ok (s, d)) (html_F similar broken h force str jump d))
          (html_F similar broken h force str jump s) end) defs = Ok ds ∧
        Forall2 (λ p q, inks (fst p) (fst q) ∧ inks (snd p) (snd q)) ds (map (λ p, (written (fst p), written (snd p))) defs)) as (ds & -> & F).
      { induction IH as [|[a b] defs [Ha Hb] _ IHr]; [exists []; split; [done|constructor]|]. cbn [forallb] in C. apply andb_true_iff in C as [[C1 C2]%andb_true_iff C3].
        destruct (Ha C1) as (sa & Ea & Fa). destruct (Hb C2) as (sb & Eb & Fb). destruct (IHr C3) as (rs & Er & Fr).
        simpl in Ea, Eb. exists ((sa, sb) :: rs). split; [|by constructor].
        match goal with |- omapM ?f (?c :: ?l) = _ =>
          change (omapM f (c :: l)) with (obind (λ y, obind (λ ys, Ok (y :: ys)) (omapM f l)) (f c)) end.
        rewrite Er, Ea. cbn [obind]. rewrite Eb. done. }
      eexists. split; [done|]. apply inks_defs in F. rewrite map_map in F.
      erewrite map_ext; [exact F|]. by intros [a b].
    - auto.
  Qed.
End text.
