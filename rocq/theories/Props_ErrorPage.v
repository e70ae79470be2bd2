(** C63: error pages. *)
From Coq Require Import Ascii String ZArith Lia.
From stdpp Require Import base tactics strings list.
From Verif Require Import GoBase StrProofs Ast Content Section ParseSpec Peg ParserMain Shape Props_Parser Annotate AnnotateProofs
  Props_Annotate Html HtmlSpec HtmlProofs HtmlText Report ErrorPage.
Local Open Scope string_scope. Local Open Scope list_scope.

(** Every error is explained by well-formed HTML made of the elements of the
    templates only, whose text is the explanation: whatever the names of tags,
    functions and files, the messages and the source line contain is text. There is
    none exactly if a source line cannot be shown. *)
Theorem error_page_says : ∀ T e,
  match error_html T e, explanation T e with
  | Some html, Some t => page_says html t
  | None, None => True
  | _, _ => False
  end.
Proof.
  intros T e. pose proof (error_html_says T e) as H. destruct (error_html T e), (explanation T e); try done.
  destruct H as (ts & H1 & H2 & H3 & H4). exists ts. split_and!; try done. apply (H2 []).
Qed.
Print Assumptions error_page_says.

(** The response is that in a frame which does not depend on the error. All elements of
    the frame are closed. If there is nothing to put there, the response says so and
    ends. *)
Definition frame_top : string :=
  "<!DOCTYPE html>" +:+ lf +:+ "<html>" +:+ lf +:+ "  <head>" +:+ lf +:+
  "    <meta http-equiv=""content-type"" content=""text/html; charset=utf-8"" />" +:+ lf +:+
  "    <meta name=""viewport"" content=""width=device-width"" />" +:+ lf +:+
  "    <title>Booklit Error</title>" +:+ lf +:+ "    <style type=""text/css"">".
Definition frame_middle : string :=
  "</style>" +:+ lf +:+ "  </head>" +:+ lf +:+ "  <body>" +:+ lf +:+ "    <div class=""error-panel"">" +:+ lf +:+
  "      <h1 class=""title-header"">your book is lit! ...on fire.</h1>" +:+ lf +:+ lf +:+ "      ".
Theorem error_page_frame : ∃ bottom, (∀ T css e html, error_html T e = Some html →
    error_response T css e = frame_top +:+ css +:+ frame_middle +:+ html +:+ bottom) ∧
  (∀ T css e, error_html T e = None →
    error_response T css e = frame_top +:+ css +:+ frame_middle +:+ "failed to render error page: " +:+ t_tmpl T) ∧
  ∃ ta tb tc, tokens frame_top = Some ta ∧ tokens frame_middle = Some tb ∧ tokens bottom = Some tc ∧
    balance [] ta = Some ["style"; "head"; "html"] ∧
    balance ["style"; "head"; "html"] tb = Some ["div"; "body"; "html"] ∧
    balance ["div"; "body"; "html"] tc = Some [].
Proof.
  exists error_page_after. split; [|split].
  - intros T css e html E. unfold error_response. rewrite E.
    change (error_page_before css) with (frame_top +:+ (css +:+ frame_middle)). by rewrite !sapp_assoc.
  - intros T css e E. unfold error_response. rewrite E.
    change (error_page_before css) with (frame_top +:+ (css +:+ frame_middle)). by rewrite !sapp_assoc.
  - eexists _, _, _. split_and!; vm_compute; reflexivity.
Qed.
Print Assumptions error_page_frame.

(** What the location marks is marked on the page: it is what the element "annotated"
    contains, and the rest of the line is around it. *)
Theorem error_page_marks : ∀ T l s, source_of T l = AShow s → sn_eof s = false →
  ∃ html ts ts', annotated_html T l = Some html ∧
    tokens html = Some (ts ++ [TOpen "pre" [("class", "line")]] ++
      map TChar (list_ascii_of_string (unnul (sn_prefix s))) ++ [TOpen "span" [("class", "annotated")]] ++
      map TChar (list_ascii_of_string (unnul (sn_annotated s))) ++ [TClose "span"] ++
      map TChar (list_ascii_of_string (unnul (sn_suffix s))) ++ [TClose "pre"] ++ ts').
Proof.
  intros T l s Hs He. unfold source_of in Hs. unfold annotated_html. rewrite Hs, He.
  match goal with |- ∃ _ _ _, Some ?h = _ ∧ _ => set (html := h) end. exists html.
  set (start := "<div class=""file-snippet"">" +:+ lf +:+ "  <pre class=""file-path"">" +:+ escape (el_file l) +:+ ":</pre>" +:+ lf +:+ lf +:+
    "  <div class=""annotated-line"">" +:+ lf +:+ "    <pre class=""lineno"">" +:+ escape (four (sn_line s)) +:+ "</pre>" +:+ lf +:+
    "    " +:+ lf +:+ "    ").
  assert (∃ ts, read SText start = Some (SText, ts)) as (ts & Hts).
  { subst start. eexists. do 3 (eapply read_app; [reflexivity|]). eapply read_app; [apply read_escape|].
    do 6 (eapply read_app; [reflexivity|]). eapply read_app; [apply read_escape|reflexivity]. }
  set (stop := lf +:+ "    " +:+ lf +:+ "  </div>" +:+ lf +:+ "</div>").
  assert (∃ ts, read SText stop = Some (SText, ts)) as (ts' & Hts') by (eexists; reflexivity).
  assert (html = start +:+ "<pre class=""line"">" +:+ escape (sn_prefix s) +:+ "<span class=""annotated"">" +:+
    escape (sn_annotated s) +:+ "</span>" +:+ escape (sn_suffix s) +:+ "</pre>" +:+ stop) as ->.
  { subst html start stop. rewrite !sapp_assoc. reflexivity. }
  exists ts, ts'. split; [done|]. unfold tokens.
  match goal with |- match ?r with _ => _ end = Some ?x => enough (r = Some (SText, x)) as -> by done end.
  eapply read_app; [exact Hts|]. eapply read_app; [reflexivity|]. eapply read_app; [apply read_escape|].
  eapply read_app; [reflexivity|]. eapply read_app; [apply read_escape|]. eapply read_app; [reflexivity|].
  eapply read_app; [apply read_escape|]. eapply read_app; [reflexivity|]. exact Hts'.
Qed.
Print Assumptions error_page_marks.

(** The locations of an error. *)
Fixpoint locations (e : error) : list errloc :=
  match e with
  | EParse l | EUnknownTag _ _ l | EUndefined _ l => [l]
  | EAmbiguous _ defs l => l :: defs
  | EFailed _ e l => l :: locations e
  | ETitleTwice first l => [l; first]
  | _ => []
  end.

(** The page is complete if every location has a line that can be read, or no line at
    all, and a column that counts from 1. *)
Theorem error_page_complete : ∀ T e, (∀ l, l ∈ locations e → l_line (el_loc l) = 0 ∨
    1 ≤ l_col (el_loc l) ∧ ∃ file line, t_open T (el_file l) = inr file ∧
      line_in_question (t_size T) file (l_line (el_loc l)) = Some line) →
  ∃ html, error_html T e = Some html.
Proof.
  intros T e H.
  assert (∀ l, l ∈ locations e → ∃ h, annotated_html T l = Some h) as L.
  { intros l Hl. destruct (H l Hl) as [E|(Hc & f & x & Hf & Hx)].
    - unfold annotated_html, annotated. rewrite E. by eexists.
    - pose proof (annotated_parts (t_size T) (Some f) l Hc) as P. unfold annotated_html. rewrite Hf.
      destruct (annotated (t_size T) (Some f) l); try done; try by eexists.
      + destruct P as [?|(? & [= <-] & P)]; [done|congruence]. }
  clear H. induction e; cbn [error_html locations] in *; try by eexists.
  - destruct (L l (elem_of_list_here _ _)) as (h & ->). by eexists.
  - destruct (L l (elem_of_list_here _ _)) as (h & ->). by eexists.
  - destruct (L l (elem_of_list_here _ _)) as (h & ->). cbn [mbind option_bind].
    assert (∀ d, d ∈ defs → ∃ h, annotated_html T d = Some h) as D by (intros d Hd; apply L; by right).
    assert (∃ hs, omap_all (annotated_html T) defs = Some hs) as (hs & ->); [|by eexists].
    clear -D. induction defs as [|d defs IH]; [by eexists|]. cbn [omap_all].
    destruct (D d (elem_of_list_here _ _)) as (h & ->). destruct IH as (hs & ->); [intros; apply D; by right|]. by eexists.
  - destruct (L l (elem_of_list_here _ _)) as (h & ->). by eexists.
  - destruct (L l (elem_of_list_here _ _)) as (h & ->). destruct IHe as (h' & ->); [intros; apply L; by right|]. by eexists.
  - destruct (L second (elem_of_list_here _ _)) as (h & ->). destruct (L first) as (h' & ->); [apply elem_of_list_further, elem_of_list_here|]. by eexists.
Qed.
Print Assumptions error_page_complete.

Lemma marked_not_eof size file l s : annotated size file l = AShow s → sn_annotated s ≠ "" → sn_eof s = false.
Proof.
  unfold annotated. destruct (Nat.eqb _ _); [done|]. destruct (f ← file; _) as [line|]; [|done].
  destruct (Z.leb _ _); [|by intros [= <-]].
  destruct (slice line 0 _); [|done]. destruct (slice line (_ - 1) _) as [a|] eqn:E; [|done].
  destruct (slice line _ (Z.of_nat _)); [|done]. intros [= <-] H. cbn in *. apply String.eqb_neq. intros ->.
  unfold slice in E. destruct (_ && _); [|done]. injection E as <-. apply H. cbn. by destruct (Z.to_nat _), (Z.to_nat _).
Qed.

(** End to end: calling an undefined function gives a page on which its name is marked,
    if only ASCII comes before it on the line. *)
Theorem error_page_function : ∀ T d top f args l path, go_parse d = PVal (VNode top) →
  inside top (NInvoke f args l) → t_open T path = inr d → Forall (λ l, String.length l < t_size T) (ssplit nl d) →
  ∃ html, error_html T (EUndefined f (ErrLoc path l (S (String.length f)))) = Some html ∧
  ∃ pre post, d = pre +:+ String "\" f +:+ post ∧ l_off l = String.length pre ∧
   (sforall (λ a, negb (continues a)) (since_lf pre) = true →
    ∃ snippet suffix ts ts', annotated_html T (ErrLoc path l (S (String.length f))) = Some snippet ∧
      (suffix = until_lf post ∨ suffix = drop_cr (until_lf post)) ∧
      tokens snippet = Some (ts ++ [TOpen "pre" [("class", "line")]] ++
        map TChar (list_ascii_of_string (unnul (since_lf pre))) ++ [TOpen "span" [("class", "annotated")]] ++
        map TChar (list_ascii_of_string (unnul (String "\" f))) ++ [TClose "span"] ++
        map TChar (list_ascii_of_string (unnul suffix)) ++ [TClose "pre"] ++ ts')).
Proof.
  intros T d top f args l path Hp Hin Ho Hs.
  destruct (error_page_complete T (EUndefined f (ErrLoc path l (S (String.length f))))) as (html & Hh).
  { intros l' [->|[]%elem_of_nil]%elem_of_cons. right. cbn [el_loc el_file].
    destruct (function_line _ d top f args l Hp Hin Hs) as (pre & post & suffix & _ & _ & _ & Hc & Hq & _).
    split; [|by eexists _, _]. rewrite Hc. unfold col_after. rewrite col_chars. destruct (Nat.eqb _ _); lia. }
  exists html. split; [done|].
  destruct (annotated_function (t_size T) d top f args l path Hp Hin Hs) as (pre & post & Hd & Hoff & H).
  exists pre, post. split_and!; [done|done|]. intros Ha. destruct (H Ha) as (s & suffix & Hsh & E1 & E2 & E3 & Hsuf).
  destruct (error_page_marks T (ErrLoc path l (S (String.length f))) s) as (sn & ts & ts' & Hsn & Ht).
  { unfold source_of. cbn [el_file]. by rewrite Ho. }
  { apply (marked_not_eof _ _ _ _ Hsh). by rewrite E2. }
  rewrite E1, E2, E3 in Ht. by exists sn, suffix, ts, ts'.
Qed.
Print Assumptions error_page_function.

Example error_page_met : ∃ top l html,
  go_parse ("a" +:+ nls +:+ "<b> \nope{x}" +:+ nls) = PVal (VNode top) ∧ inside top (NInvoke "nope" [NSeq [NString "x"]] l) ∧
  error_html (Telling (λ _, inr ("a" +:+ nls +:+ "<b> \nope{x}" +:+ nls)) 4096 (λ _, "") (λ _, "") (λ _, "") "")
    (EUndefined "nope" (ErrLoc "f.lit" l 5)) = Some html ∧
  page_says html "undefined function: \nope f.lit: 2 <b> \nope{x}".
Proof.
  eexists _, (Loc 2 5 6), _. split; [vm_compute; reflexivity|]. split; [|split; [vm_compute; reflexivity|]].
  - eapply inside_seq; [left|]. eapply inside_para; [right; left|right; left|]. apply inside_refl.
  - eexists. split; [vm_compute; reflexivity|]. split; [vm_compute; reflexivity|]. split; [|vm_compute; reflexivity].
    repeat constructor; apply error_tokenb_spec; vm_compute; reflexivity.
Qed.

(** A parse error at a line feed has no page: its column is 0, and the response ends
    where the error should be explained. *)
Theorem error_page_complete_refuted : ∃ T d l, go_parse d = PErr [(NoMatch, l)] ∧ t_open T "f.lit" = inr d ∧
  (∀ css, error_response T css (EParse (ErrLoc "f.lit" l 1)) =
     error_page_before css +:+ "failed to render error page: " +:+ t_tmpl T) ∧
  ∃ shown, report T (EParse (ErrLoc "f.lit" l 1)) = "f.lit:2: parse error: no match found" +:+ lf +:+ lf +:+ shown.
Proof.
  exists (Telling (λ _, inr ("\" +:+ nls)) 4096 (λ _, "") (λ _, "no match found") (λ _, "") ""), ("\" +:+ nls). eexists.
  split_and!; [vm_compute; reflexivity|reflexivity|intros css; reflexivity|]. eexists. vm_compute. reflexivity.
Qed.
Print Assumptions error_page_complete_refuted.

(** So has an error in a file that has become shorter since it was loaded. *)
Theorem error_page_changed_refuted : ∃ T l, l_line (el_loc l) = 3 ∧ l_col (el_loc l) = 1 ∧
  t_open T (el_file l) = inr ("one line" +:+ nls) ∧ error_html T (EUndefined "f" l) = None.
Proof.
  exists (Telling (λ _, inr ("one line" +:+ nls)) 4096 (λ _, "") (λ _, "") (λ _, "") ""), (ErrLoc "f.lit" (Loc 3 1 9) 2).
  split_and!; reflexivity.
Qed.
Print Assumptions error_page_changed_refuted.
