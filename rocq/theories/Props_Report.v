(** C62: what is printed about an error. *)
From Coq Require Import Ascii String ZArith Lia.
From stdpp Require Import base tactics strings list.
From Verif Require Import GoBase StrProofs Ast Content Section ParseSpec Peg ParserMain Shape Props_Parser Annotate AnnotateProofs
  Props_Annotate Report.
Local Open Scope string_scope. Local Open Scope list_scope.

(** ** Specification *)

(** A text made of whole lines. *)
Definition text_lines (ls : list string) (s : string) : Prop :=
  s = sconcat (map (λ l, l +:+ lf) ls) ∧ Forall (λ l, no_char nl l = true) ls.

(** Where an error is, for those that know. *)
Definition where_is (e : error) : option errloc :=
  match e with
  | EParse l | EUnknownTag _ _ l | EAmbiguous _ _ l | EUndefined _ l | EFailed _ _ l | ETitleTwice _ l => Some l
  | _ => None
  end.

(** File and line, as editors read them. *)
Definition place (l : errloc) : string :=
  el_file l +:+ (if Nat.eqb (l_line (el_loc l)) 0 then "" else ":" +:+ dec (l_line (el_loc l))) +:+ ": ".

(** What is wrong, in one sentence without the cause. *)
Definition what (T : telling) (e : error) : string :=
  match e with EFailed fn _ _ => "function \" +:+ fn +:+ " returned an error" | _ => error_text T e end.

Definition all_of (c : ascii) (n : nat) (s : string) : Prop := String.length s = n ∧ sforall (Ascii.eqb c) s = true.

(** ** Lemmas *)

Lemma srepeat_all c n : all_of c n (srepeat c n).
Proof.
  split; [induction n; simpl; congruence|]. induction n as [|n IH]; [done|]. cbn [srepeat sforall].
  rewrite Ascii.eqb_refl. done.
Qed.

Definition whole (s : string) : Prop := s = "" ∨ ∃ a, s = a +:+ lf.
Lemma whole_app a b : whole a → whole b → whole (a +:+ b).
Proof.
  intros Ha [->|(b' & ->)]; [by rewrite sapp_nil_r|]. right. exists (a +:+ b'). by rewrite sapp_assoc.
Qed.
Lemma whole_lf a : whole (a +:+ lf).
Proof. right. by exists a. Qed.
Lemma whole_app_r a b : whole b → b ≠ "" → whole (a +:+ b).
Proof. intros [->|(b' & ->)] H; [done|]. right. exists (a +:+ b'). by rewrite sapp_assoc. Qed.
Lemma whole_sconcat l : Forall whole l → whole (sconcat l).
Proof. induction 1 as [|x l Hx _ IH]; [by left|]. cbn [sconcat]. by apply whole_app. Qed.

Lemma whole_lines s : whole s → ∃ ls, text_lines ls s.
Proof.
  intros [->|(a & ->)]; [by exists []; split|].
  exists (ssplit nl a). split; [|apply ssplit_forall_no_char].
  rewrite <- (sjoin_ssplit nl a) at 1. pose proof (ssplit_not_nil nl a). induction (ssplit nl a) as [|x [|y l] IH]; [done|..].
  - cbn [sjoin map sconcat]. by rewrite sapp_nil_r.
  - rewrite sjoin_cons. cbn [map sconcat] in *. rewrite !sapp_assoc in *. rewrite IH by done. by rewrite ?sapp_assoc.
Qed.
Lemma text_lines_inj ls ls' s : text_lines ls s → text_lines ls' s → ls = ls'.
Proof.
  intros [-> H1] [E H2]. revert ls' E H2. induction H1 as [|x ls Hx _ IH]; intros [|x' ls'] E H2; [done|..].
  - cbn in E. by destruct x'.
  - cbn in E. by destruct x.
  - inversion_clear H2 as [|? ? Hx' H2']. cbn [map sconcat] in E. rewrite !sapp_assoc in E.
    assert (x = x' ∧ sconcat (map (λ l, l +:+ lf) ls) = sconcat (map (λ l, l +:+ lf) ls')) as [-> E'].
    { clear -Hx Hx' E. unfold no_char in *. revert x' Hx' E. induction x as [|c x IH]; intros [|c' x'] Hx' E; cbn in *.
      - by injection E.
      - injection E as <- _. done.
      - injection E as -> _. done.
      - injection E as <- E. apply andb_true_iff in Hx as [_ Hx], Hx' as [_ Hx']. destruct (IH Hx _ Hx' E) as [-> ?]. done. }
    by rewrite (IH _ E').
Qed.

Lemma indented_line p line x s : no_char nl x = true →
  indented_from p line (x +:+ lf +:+ s) = p +:+ (line +:+ x) +:+ lf +:+ indented_from p "" s.
Proof.
  unfold no_char. revert line. induction x as [|c x IH]; intros line; cbn [sforall append].
  - intros _. rewrite sapp_nil_r. unfold lf. cbn [append indented_from]. by rewrite Ascii.eqb_refl.
  - intros [H1 H2]%andb_true_iff. apply negb_true_iff in H1. cbn [indented_from]. rewrite H1, IH by done.
    by rewrite (sapp_assoc line).
Qed.
Lemma indented_lines p ls s : text_lines ls s → indented p s = sconcat (map (λ l, p +:+ l +:+ lf) ls).
Proof.
  intros [-> H]. unfold indented. induction H as [|x ls Hx _ IH]; [done|].
  cbn [map sconcat]. rewrite sapp_assoc, indented_line by done. rewrite IH, !sapp_assoc. done.
Qed.
Lemma whole_indented p s : whole (indented p s).
Proof.
  unfold indented. generalize "". induction s as [|c s IH]; intros line; [by left|]. cbn [indented_from].
  destruct (Ascii.eqb c nl); [|done]. rewrite <- !sapp_assoc. apply whole_app; [|done]. apply whole_lf.
Qed.
Lemma whole_location T l : whole (annotate_location T l).
Proof.
  unfold annotate_location. destruct (Nat.eqb _ _); [by left|]. destruct (t_open T _); [apply whole_lf|].
  destruct (line_in_question _ _ _); [|apply whole_lf]. cbv zeta. rewrite <- !sapp_assoc. apply whole_lf.
Qed.
Lemma whole_mid a r : whole r → whole (a +:+ lf +:+ r).
Proof. intros H. rewrite <- sapp_assoc. apply whole_app; [apply whole_lf|done]. Qed.
Lemma whole_after r : whole r → whole (lf +:+ r).
Proof. intros H. by apply (whole_mid ""). Qed.
Lemma whole_head T l a r : whole r → whole (annotate l a +:+ lf +:+ lf +:+ annotate_location T l +:+ r).
Proof. intros H. apply whole_mid, whole_after, whole_app; [apply whole_location|done]. Qed.
Lemma whole_pretty T e : whole (pretty_print T e).
Proof.
  destruct e; try (by left); cbn [pretty_print].
  - apply whole_mid, whole_after, whole_location.
  - apply whole_head. destruct similar; [apply whole_lf|].
    apply whole_mid, whole_after, whole_app; [|apply whole_after, whole_lf].
    apply whole_sconcat, Forall_map, Forall_forall. intros ? _. rewrite <- sapp_assoc. apply whole_lf.
  - apply whole_head. apply whole_mid, whole_after, whole_app; [|apply whole_lf].
    apply whole_sconcat, Forall_map, Forall_forall. intros d _.
    change ("- " +:+ ?x +:+ ":" +:+ lf +:+ ?y) with ("- " +:+ x +:+ (":" +:+ lf +:+ y)).
    rewrite <- (sapp_assoc "- "). rewrite <- (sapp_assoc ("- " +:+ _) ":"). apply whole_mid, whole_indented.
  - apply whole_mid, whole_after, whole_location.
  - apply whole_head. destruct (is_pretty _); [apply whole_indented|]. rewrite <- !sapp_assoc. apply whole_lf.
  - apply whole_head. apply whole_mid, whole_after, whole_app; [apply whole_location|apply whole_lf].
Qed.

(** ** Theorems *)

(** An error that knows its place is told on a line that begins with file and line
    number and says what is wrong; then comes an empty line. *)
Theorem report_headline : ∀ T e l, where_is e = Some l →
  ∃ rest, report T e = place l +:+ what T e +:+ lf +:+ lf +:+ rest.
Proof.
  intros T e l Hl. assert (∀ msg, annotate l msg = place l +:+ msg) as Ha.
  { intros msg. unfold annotate, place. destruct (Nat.eqb _ _); by rewrite !sapp_assoc. }
  unfold report. destruct e; try done; simpl in Hl; injection Hl as ->; cbn [is_pretty pretty_print what];
    rewrite Ha, sapp_assoc; eexists; reflexivity.
Qed.
Print Assumptions report_headline.

(** All others are told by their text alone. *)
Theorem report_plain : ∀ T e, where_is e = None → report T e = error_text T e +:+ lf.
Proof. intros T e. by destruct e. Qed.
Print Assumptions report_plain.

(** A report is made of whole lines, at least one. *)
Theorem report_lines : ∀ T e, ∃ ls, text_lines ls (report T e) ∧ ls ≠ [].
Proof.
  intros T e. assert (whole (report T e)) as (ls & Hls)%whole_lines.
  { unfold report. destruct (is_pretty e); [apply whole_pretty|apply whole_lf]. }
  exists ls. split; [done|]. intros ->. destruct Hls as [H _]. cbn in H.
  destruct (where_is e) as [l|] eqn:E.
  - apply (report_headline T) in E as (rest & E). rewrite E in H. unfold place in H.
    apply sapp_eq_nil in H as [_ H]. apply sapp_eq_nil in H as [_ H]. done.
  - apply (report_plain T) in E. rewrite E in H. apply sapp_eq_nil in H as [_ H]. done.
Qed.
Print Assumptions report_lines.

(** An error within an error follows with all its lines, indented: none is lost. *)
Theorem report_nested : ∀ T fn e l ls, is_pretty e = true → text_lines ls (report T e) →
  report T (EFailed fn e l) = place l +:+ what T (EFailed fn e l) +:+ lf +:+ lf +:+ annotate_location T l +:+
    sconcat (map (λ x, "  " +:+ x +:+ lf) ls).
Proof.
  intros T fn e l ls Hp Hls. unfold report in Hls. rewrite Hp in Hls. unfold report. cbn [is_pretty pretty_print]. rewrite Hp.
  rewrite (indented_lines _ _ _ Hls). unfold annotate, place, what. destruct (Nat.eqb _ _); by rewrite !sapp_assoc.
Qed.
Print Assumptions report_nested.

(** The place of an error is shown by its source line and, below, a row of carets in
    the column of the error: as many columns from the left as there are before the
    error, and as long as the error. *)
Theorem report_carets : ∀ T l file line, t_open T (el_file l) = inr file →
  l_line (el_loc l) ≠ 0 → line_in_question (t_size T) file (l_line (el_loc l)) = Some line → 1 ≤ l_col (el_loc l) →
  ∃ gutter pad carets,
    annotate_location T l = gutter +:+ line +:+ lf +:+ pad +:+ esc +:+ "[31m" +:+ carets +:+ esc +:+ "[0m" +:+ lf ∧
    (∃ blanks n, gutter = blanks +:+ dec (l_line (el_loc l)) +:+ "| " ∧ all_of " " n blanks ∧ 1 ≤ n ∧ 6 ≤ String.length gutter) ∧
    all_of " " (String.length gutter + (l_col (el_loc l) - 1)) pad ∧ all_of "^" (el_len l) carets.
Proof.
  intros T l file line Hf H0 Hl Hc. unfold annotate_location. apply Nat.eqb_neq in H0. rewrite H0, Hf, Hl. cbv zeta.
  rewrite (sapp_assoc (four _) "| "). rewrite <- (sapp_assoc (four _) "| ").
  eexists (four (l_line (el_loc l)) +:+ "| "), _, _. split; [reflexivity|]. split; [|split].
  - unfold four. set (d := dec (l_line (el_loc l))).
    exists (srepeat " " (4 - String.length (" " +:+ d)) +:+ " "), (S (4 - String.length (" " +:+ d))).
    rewrite !sapp_assoc. split; [done|]. split; [|split; [lia|]].
    + destruct (srepeat_all " " (4 - String.length (" " +:+ d))) as [E1 E2]. split.
      * rewrite slength_app, E1. simpl. lia.
      * rewrite sforall_app, E2. done.
    + rewrite slength_app. destruct (srepeat_all " " (4 - String.length (" " +:+ d))) as [-> _].
      rewrite !slength_app. cbn [String.length append]. lia.
  - replace (String.length (four (l_line (el_loc l)) +:+ "| ") + (l_col (el_loc l) - 1))
      with (String.length (four (l_line (el_loc l)) +:+ "| ") + l_col (el_loc l) - 1) by lia. apply srepeat_all.
  - apply srepeat_all.
Qed.
Print Assumptions report_carets.

(** End to end: an error of a function called in a document shows the line of the
    call with the backslash and the name underlined, however many characters of
    several bytes come before it. *)
Theorem report_points : ∀ T d top f args l path, go_parse d = PVal (VNode top) →
  inside top (NInvoke f args l) → t_open T path = inr d → Forall (λ l, String.length l < t_size T) (ssplit nl d) →
  ∃ pre post suffix gutter pad carets, d = pre +:+ String "\" f +:+ post ∧ l_off l = String.length pre ∧
    annotate_location T (ErrLoc path l (S (String.length f))) =
      gutter +:+ (since_lf pre +:+ String "\" f +:+ suffix) +:+ lf +:+
      pad +:+ esc +:+ "[31m" +:+ carets +:+ esc +:+ "[0m" +:+ lf ∧
    (suffix = until_lf post ∨ suffix = drop_cr (until_lf post)) ∧
    (∃ blanks n, gutter = blanks +:+ dec (1 + lf_count pre) +:+ "| " ∧ all_of " " n blanks) ∧
    all_of " " (String.length gutter + char_count (since_lf pre)) pad ∧ all_of "^" (String.length (String "\" f)) carets.
Proof.
  intros T d top f args l path Hp Hin Ho Hs.
  destruct (function_line _ d top f args l Hp Hin Hs) as (pre & post & suffix & Hd & Hoff & Hl & Hc & Hq & Hsuf).
  assert (l_col l = 1 + char_count (since_lf pre)) as Hcol.
  { rewrite Hc. unfold col_after. rewrite col_chars. by destruct (Nat.eqb _ _). }
  assert (l_line l ≠ 0) as H0 by (rewrite Hl; done).
  destruct (report_carets T (ErrLoc path l (S (String.length f))) d _ Ho H0 Hq ltac:(cbn [el_loc]; lia))
    as (g & pad & ca & E & (bl & n & Hg & Hb & _) & Hpad & Hca).
  exists pre, post, suffix, g, pad, ca. split_and!; try done.
  - exists bl, n. split; [|done]. rewrite Hg. cbn [el_loc]. rewrite Hl. done.
  - cbn [el_loc] in Hpad. rewrite Hcol in Hpad. by replace (1 + char_count (since_lf pre) - 1) with (char_count (since_lf pre)) in Hpad by lia.
Qed.
Print Assumptions report_points.

(** Similar tags are all listed, one to a line; the definitions of an ambiguous tag
    likewise, with the source of each; a second title is shown with the first. *)
Theorem report_similar : ∀ T name similar l, similar ≠ [] →
  report T (EUnknownTag name similar l) = place l +:+ "unknown tag '" +:+ name +:+ "'" +:+ lf +:+ lf +:+
    annotate_location T l +:+ "These tags seem similar:" +:+ lf +:+ lf +:+
    sconcat (map (λ t, "- " +:+ t_name t +:+ lf) similar) +:+ lf +:+ "Did you mean one of these?" +:+ lf.
Proof.
  intros T name similar l H. unfold report. cbn [is_pretty pretty_print error_text]. destruct similar; [done|].
  unfold annotate, place. destruct (Nat.eqb _ _); by rewrite !sapp_assoc.
Qed.
Print Assumptions report_similar.

Theorem report_ambiguous : ∀ T name defs l,
  ∃ shown, report T (EAmbiguous name defs l) = place l +:+ "ambiguous target for tag '" +:+ name +:+ "'" +:+ lf +:+ lf +:+
    annotate_location T l +:+ "The same tag was defined in the following locations:" +:+ lf +:+ lf +:+
    sconcat shown +:+ "Tags must be unique so I know where to link to!" +:+ lf ∧
  Forall2 (λ d s, ∃ ls, text_lines ls (annotate_location T d) ∧
    s = "- " +:+ el_file d +:+ ":" +:+ lf +:+ sconcat (map (λ x, "  " +:+ x +:+ lf) ls)) defs shown.
Proof.
  intros T name defs l.
  exists (map (λ d, "- " +:+ el_file d +:+ ":" +:+ lf +:+ indented "  " (annotate_location T d)) defs).
  split.
  - unfold report. cbn [is_pretty pretty_print error_text]. unfold annotate, place. destruct (Nat.eqb _ _); by rewrite !sapp_assoc.
  - induction defs as [|d defs IH]; constructor; [|done].
    destruct (whole_lines _ (whole_location T d)) as (ls & Hls). exists ls. split; [done|]. by rewrite (indented_lines _ _ _ Hls).
Qed.
Print Assumptions report_ambiguous.

Theorem report_title_twice : ∀ T first l,
  report T (ETitleTwice first l) = place l +:+ "cannot set title twice" +:+ lf +:+ lf +:+ annotate_location T l +:+
    "The section's title was first set here:" +:+ lf +:+ lf +:+ annotate_location T first +:+
    "Maybe the second \title should be in a \section{...}?" +:+ lf.
Proof. intros. unfold report, annotate, place. cbn [is_pretty pretty_print error_text]. unfold annotate. destruct (Nat.eqb _ _); by rewrite !sapp_assoc. Qed.
Print Assumptions report_title_twice.

(** Such documents, places and errors exist; é counts as one column. *)
Definition report_doc : string := "A" +:+ nls +:+ String "195" (String "169" "t\nope{x}.") +:+ nls.
Definition report_world : telling :=
  Telling (λ p, if String.eqb p "a.lit" then inr report_doc else inl ("open " +:+ p)) 4096
    (λ p, "stat " +:+ p) (λ _, "no match found") (λ _, "") "".
Example report_points_met : ∃ top l, go_parse report_doc = PVal (VNode top) ∧
  inside top (NInvoke "nope" [NSeq [NString "x"]] l) ∧
  report report_world (EFailed "nope" (EPlugin "boom") (ErrLoc "a.lit" l 5)) =
    "a.lit:2: function \nope returned an error" +:+ nls +:+ nls +:+
    "   2| " +:+ String "195" (String "169" "t\nope{x}.") +:+ nls +:+
    "        " +:+ esc +:+ "[31m^^^^^" +:+ esc +:+ "[0m" +:+ nls +:+
    esc +:+ "[33mboom" +:+ esc +:+ "[0m" +:+ nls.
Proof.
  eexists _, (Loc 2 3 5). split; [vm_compute; reflexivity|]. split; [|vm_compute; reflexivity].
  eapply inside_seq; [left|]. eapply inside_para; [right; left|right; left|]. apply inside_refl.
Qed.
Example report_nested_met : ∃ ls, text_lines ls (report report_world (EUndefined "g" (ErrLoc "b.lit" (Loc 3 1 9) 2))) ∧
  ls = ["b.lit:3: undefined function \g"; ""; "open b.lit"].
Proof. eexists. split; [|reflexivity]. split; [vm_compute; reflexivity|]. repeat constructor. Qed.

(** The carets of a parse error at a line feed are not below the error but left of
    the next line. *)
Theorem report_column_refuted : ∃ T d l, go_parse d = PErr [(NoMatch, l)] ∧ t_open T "f.lit" = inr d ∧
  annotate_location T (ErrLoc "f.lit" l 1) =
    "   2| " +:+ nls +:+ "     " +:+ esc +:+ "[31m^" +:+ esc +:+ "[0m" +:+ nls ∧ lf_count (stake (l_off l) d) = 0.
Proof.
  exists (Telling (λ _, inr ("\" +:+ nls)) 4096 (λ _, "") (λ _, "") (λ _, "") ""), ("\" +:+ nls). eexists.
  split_and!; vm_compute; reflexivity.
Qed.
Print Assumptions report_column_refuted.
