(** C73: from the source of a book to its pages. *)
From Coq Require Import Ascii String.
From stdpp Require Import base tactics relations strings list.
From Verif Require Import GoBase Ast Grammar Section ParseSpec Peg Evaluate Written WrittenProofs WrittenMore Render WriterProofs Html Command Book BookLaid BookEval BookSections BookHtml BookBuild.
Local Open Scope string_scope. Local Open Scope list_scope.

(** ** Printing *)

Theorem book_prints E W D o b d mt : base_env E → book_fine b → coherent b = true → document (sec_tree b) d → valid_utf8 d →
  D (o_in o) = Some (mt, d) → o_tag o = "" → o_path o = "" → o_text o = "" → o_out o = "" →
  ∃ k, ∀ n m fs, k ≤ n → k ≤ m → build (reading D E) W o n m fs = (fs, Ok (first_page b)).
Proof.
  intros HE [Hf Hr] Hco. intros. eapply build_prints; [done|done|by exists mt, d|by apply laid_one|done|done|done| |done].
  intros tag Ht. right. by apply Hr, page_refs_sec.
Qed.
Print Assumptions book_prints.

(** ** Writing *)

Theorem book_files E W D o b d mt : base_env E → book_fine b → coherent b = true → document (sec_tree b) d → valid_utf8 d →
  D (o_in o) = Some (mt, d) → o_tag o = "" → o_path o = "" → o_text o = "" → o_out o ≠ "" → o_index o = false →
  w_mkdir W = true → Forall (λ p, w_open W (fst p) = true) (pages b) →
  ∃ k, ∀ n m fs, k ≤ n → k ≤ m → ∃ fs', build (reading D E) W o n m fs = (fs', Ok "") ∧
    ∀ f, assoc_get f fs' = put f (assoc_get f fs) (pages b).
Proof.
  intros HE Hb Hco. intros. eapply build_files; [done|apply Hb|by exists mt, d|by apply laid_one|done|done|done| |done..].
  by apply fine_refers.
Qed.
Print Assumptions book_files.

Lemma put_other f old ps : f ∉ map fst ps → put f old ps = old.
Proof.
  revert old. induction ps as [|p ps IH]; intros old Hf; [done|]. simpl in Hf. apply not_elem_of_cons in Hf as [H1 H2].
  unfold put in *. simpl. destruct (String.eqb_spec (fst p) f) as [<-|]; [done|]. by apply IH.
Qed.
Lemma put_one f old ps c : NoDup (map fst ps) → (f, c) ∈ ps → put f old ps = Some c.
Proof.
  revert old. induction ps as [|p ps IH]; intros old Hn Hf; [by apply elem_of_nil in Hf|]. simpl in Hn. apply NoDup_cons in Hn as [H1 H2].
  apply elem_of_cons in Hf as [<-|Hf].
  - unfold put. simpl. rewrite String.eqb_refl. by apply put_other.
  - unfold put. simpl. by apply IH.
Qed.

(** If the main tags of its pages differ, every page is in its own file, and the other
    files are as they were. *)
Theorem book_each_file E W D o b d mt : base_env E → book_fine b → coherent b = true → document (sec_tree b) d → valid_utf8 d →
  D (o_in o) = Some (mt, d) → o_tag o = "" → o_path o = "" → o_text o = "" → o_out o ≠ "" → o_index o = false →
  w_mkdir W = true → Forall (λ p, w_open W (fst p) = true) (pages b) → NoDup (map fst (pages b)) →
  ∃ k, ∀ n m fs, k ≤ n → k ≤ m → ∃ fs', build (reading D E) W o n m fs = (fs', Ok "") ∧
    (∀ f page, (f, page) ∈ pages b → assoc_get f fs' = Some page) ∧
    (∀ f, f ∉ map fst (pages b) → assoc_get f fs' = assoc_get f fs).
Proof.
  intros HE Hb Hco Hd Hv HD Ht Hp Hx Ho Hi Hm Hok Hn. destruct (book_files E W D o b d mt) as [k Hk]; try done.
  exists k. intros n m fs H1 H2. destruct (Hk n m fs H1 H2) as (fs' & E1 & E2). exists fs'. split; [done|]. split.
  - intros f pg Hf. rewrite E2. by apply put_one.
  - intros f Hf. rewrite E2. by apply put_other.
Qed.
Print Assumptions book_each_file.

(** ** Books that are printed with [show_doc] *)

Lemma erase_span w : erase (span_tree w) = span_tree w.
Proof.
  assert (∀ l, Forall (λ w, erase (span_tree w) = span_tree w) l → map erase (map span_tree l) = map span_tree l) as Hall.
  { intros l Hl. induction Hl as [|w' l' Hw _ IH]; [done|]. simpl. by rewrite Hw, IH. }
  induction w as [t|k l IH|l u IH|p d|t l IH|t l IH] using span_ind'; simpl; try done.
  - by rewrite (Hall l IH).
  - by rewrite (Hall l IH).
  - by destruct (String.eqb d "").
  - apply Hall in IH. destruct l as [|w l]; [done|]. simpl in *. by rewrite IH.
  - apply Hall in IH. destruct l as [|w l]; [done|]. simpl in *. by rewrite IH.
Qed.
Lemma erase_spans l : map erase (map span_tree l) = map span_tree l.
Proof. rewrite map_map. apply map_ext. apply erase_span. Qed.
Lemma erase_lines ls : map (map erase) (map (map span_tree) ls) = map (map span_tree) ls.
Proof. rewrite map_map. apply map_ext. apply erase_spans. Qed.
Lemma erase_line l : erase (line_tree l) = line_tree l.
Proof. unfold line_tree. simpl. by rewrite erase_spans. Qed.
Lemma erase_items l : map erase (map line_tree l) = map line_tree l.
Proof. rewrite map_map. apply map_ext. apply erase_line. Qed.
Lemma erase_piece p : map (map erase) (piece_tree p) = piece_tree p.
Proof.
  destruct p as [lines|o items|lines|rows|defs|]; try done.
  - apply erase_lines.
  - unfold piece_tree, call. cbn [map erase]. by rewrite erase_items.
  - unfold piece_tree, call. cbn [map erase]. by rewrite erase_lines.
  - unfold piece_tree, call. cbn [map erase]. do 3 f_equal. rewrite map_map. apply map_ext. intros row. cbn [map erase]. by rewrite erase_items.
  - unfold piece_tree, call. cbn [map erase]. do 3 f_equal. rewrite map_map. apply map_ext. intros df. cbn [map erase]. by rewrite !erase_line.
Qed.
Lemma erase_book b : map (map (map erase)) (sec_tree b) = sec_tree b.
Proof.
  induction b as [title tags split omit body subs IH] using sec_ind'.
  change (sec_tree (Sec title tags split omit body subs)) with
    ([title_tree title tags] ++ (if cut_single split then [[[call "single-page" []]]] else []) ++
      (if cut_fresh split then [[[call "split-sections" []]]] else []) ++
      (if omit then [[[call "omit-children-from-table-of-contents" []]]] else []) ++
      map piece_tree body ++ map (λ c, [[call "section" [NSeq (map NPara (sec_tree c))]]]) subs).
  rewrite !map_app.
  f_equal; [|f_equal; [by destruct split|f_equal; [by destruct split|f_equal; [by destruct omit|f_equal]]]].
  - unfold title_tree, call. cbn [map erase]. rewrite erase_spans. by rewrite map_map.
  - rewrite map_map. apply map_ext. apply erase_piece.
  - rewrite map_map. apply map_ext_in. intros c Hc%elem_of_list_In. rewrite Forall_forall in IH. specialize (IH c Hc).
    unfold call. cbn [map erase]. do 5 f_equal. rewrite <- IH at 2. by rewrite !map_map.
Qed.

Theorem book_text b : normal (sec_tree b) → document (sec_tree b) (show_doc (sec_tree b)) ∧ valid_utf8 (show_doc (sec_tree b)).
Proof.
  intros H. apply normal_written in H. split; [|by eapply written_valid]. rewrite <- (erase_book b) at 1. by apply written_document.
Qed.
Print Assumptions book_text.

(** ** An example *)

Definition ex_book : sec :=
  Sec [Txt "My Book"] [] true false [Par [[Txt "See "; Ref "b" []; Txt " and "; Ref "x" [Txt "this"]; Txt "."]; [Sty Code [Txt "a+b"]]]; Toc]
    [Sec [Txt "Part "; Sty Italic [Txt "A"]] [] false false
       [Par [[Txt "Some "; Anc "x" []; Txt "words."]]; Lst true [[Txt "one"]; [Lnk [Txt "two"] "http://x.y"]]]
       [Sec [Txt "Deep"] ["deep"; "d"] false false [Cod [[Txt ""; Txt "x = 1"]]] []];
     Sec [Txt "B & C"] ["b"] false true [Par [[Txt "Back to "; Ref "d" []]]] [Sec [Txt "Last"] [] false false [] []]].

Definition ex_doc : string :=
  "{\title{My Book}}" +:+ nls +:+ nls +:+ "{\split-sections}" +:+ nls +:+ nls +:+
  "See {\reference{b}} and {\reference{x}{this}}." +:+ nls +:+ "{\code{a+b}}" +:+ nls +:+ nls +:+
  "{\table-of-contents}" +:+ nls +:+ nls +:+
  "{\section{" +:+ nls +:+ "{\title{Part {\italic{A}}}}" +:+ nls +:+ nls +:+ "Some {\target{x}}words." +:+ nls +:+ nls +:+
  "{\ordered-list{one}{{\link{two}{http://x.y}}}}" +:+ nls +:+ nls +:+
  "{\section{" +:+ nls +:+ "{\title{Deep}{deep}{d}}" +:+ nls +:+ nls +:+ "{\code{{" +:+ nls +:+ "x = 1" +:+ nls +:+ "}}}}}}}" +:+ nls +:+ nls +:+
  "{\section{" +:+ nls +:+ "{\title{B & C}{b}}" +:+ nls +:+ nls +:+ "{\omit-children-from-table-of-contents}" +:+ nls +:+ nls +:+
  "Back to {\reference{d}}" +:+ nls +:+ nls +:+ "{\section{" +:+ nls +:+ "{\title{Last}}}}}}".

Example ex_book_fine : book_fine ex_book ∧ NoDup (map fst (pages ex_book)).
Proof.
  split; [split; [vm_compute; reflexivity|]|].
  - intros tag Ht. assert (tag ∈ ["b"; "x"; "d"]) as Ht' by exact Ht. clear Ht.
    repeat (apply elem_of_cons in Ht' as [->|Ht']; [eexists; vm_compute; reflexivity|]). by apply elem_of_nil in Ht'.
  - apply (bool_decide_unpack _). vm_compute. exact I.
Qed.
Example ex_book_normal : normal (sec_tree ex_book) ∧ show_doc (sec_tree ex_book) = ex_doc.
Proof.
  split; [|vm_compute; reflexivity].
  repeat first [ done | by apply nw_run; [|apply valid_ascii] | by apply nw_escape
    | match goal with |- narg _ (NSeq (map NPara _)) => apply na_paras end
    | apply np_last | apply nps_last | progress constructor ].
Qed.
Example ex_book_pages : map fst (pages ex_book) = ["my-book.html"; "part-a.html"; "b.html"] ∧
  snd <$> pages ex_book !! 2 = Some
    ("<!DOCTYPE html>" +:+ nls +:+ "<html>" +:+ nls +:+ "  <head>" +:+ nls +:+
     "    <meta http-equiv=""content-type"" content=""text/html; charset=utf-8"" />" +:+ nls +:+
     "    <title>B &amp; C</title>" +:+ nls +:+ "  </head>" +:+ nls +:+ "  <body>" +:+ nls +:+
     "    <h1 class=""section-header""><a id=""b""></a><span class=""section-number"">2 </span>B &amp; C</h1>" +:+ nls +:+ nls +:+
     "<p>Back to <a href=""part-a.html#deep"">Deep</a></p>" +:+ nls +:+ nls +:+ nls +:+ "  " +:+ nls +:+
     "    <h2 class=""section-header""><a id=""last""></a><span class=""section-number"">2.1 </span>Last</h2>" +:+ nls +:+ nls +:+ nls +:+ nls +:+ nls +:+
     "  " +:+ nls +:+ nls +:+ "  " +:+ nls +:+ nls +:+ "  </body>" +:+ nls +:+ "</html>").
Proof. split; vm_compute; reflexivity. Qed.

Definition ex_env : env := Env (λ _, None) (λ _, None) (λ _ name, base_method name) (λ _ _, false) false 0.
Definition ex_world : world := World (λ _ n, seq 0 n) (λ _, None) (λ _, "") true (λ _, true) true.

Example ex_book_built :
  ∃ k, ∀ n m, k ≤ n → k ≤ m → ∃ fs', build (reading (λ p, if String.eqb p "book.lit" then Some (7, ex_doc) else None) ex_env) ex_world
      (Options "book.lit" "out" "" "" false "") n m [("b.html", "old"); ("kept.css", "css")] = (fs', Ok "") ∧
    (∀ f page, (f, page) ∈ pages ex_book → assoc_get f fs' = Some page) ∧ assoc_get "kept.css" fs' = Some "css".
Proof.
  destruct ex_book_normal as [Hn Ht]. destruct (book_text ex_book Hn) as [Hd Hv]. rewrite Ht in Hd, Hv. destruct ex_book_fine as [Hb Hu].
  destruct (book_each_file ex_env ex_world (λ p, if String.eqb p "book.lit" then Some (7, ex_doc) else None)
    (Options "book.lit" "out" "" "" false "") ex_book ex_doc 7) as [k Hk]; try done; [by apply Forall_forall|].
  exists k. intros n m H1 H2. destruct (Hk n m [("b.html", "old"); ("kept.css", "css")] H1 H2) as (fs' & E1 & E2 & E3). exists fs'. split; [exact E1|].
  split; [exact E2|]. rewrite E3; [done|]. apply (bool_decide_unpack _). vm_compute. exact I.
Qed.
