(** C83: books as plain text. *)
From Coq Require Import Ascii String.
From stdpp Require Import base tactics relations strings list.
From Verif Require Import GoBase Ast Grammar Section ParseSpec Peg Evaluate Written WrittenProofs WrittenMore Render WriterProofs Html TextRender Command
  Book BookLaid BookEval BookSections BookHtml BookBuild BookPlain BookPlainProofs Props_Book.
Local Open Scope string_scope. Local Open Scope list_scope.

(** The book is in one file or several (BookLaid.v); a file name extension is given,
    so that the text engine is used, with its bundled templates. *)

(** Its text is printed, or else the first template that is missing is told. *)
Theorem plain_prints E W D o b t : base_env E → sec_fine b = true → on_disk D (o_in o) t → laid (on_disk D) (o_in o) b t →
  o_tag o = "" → o_path o = "" → o_text o ≠ "" → o_out o = "" →
  ∃ k, ∀ n m fs, k ≤ n → k ≤ m →
    build (reading D E) W o n m fs = (fs, match sec_lacks b with [] => Ok (page_plain [] b) | name :: _ => Err (FRender (RTemplate name)) end).
Proof. intros. by eapply plain_print. Qed.
Print Assumptions plain_prints.

(** Its pages are written: all of them, or, if a template is missing, those before
    the first page that needs it. *)
Theorem plain_files E W D o b t : base_env E → sec_fine b = true → on_disk D (o_in o) t → laid (on_disk D) (o_in o) b t →
  o_tag o = "" → o_path o = "" → o_text o ≠ "" → o_out o ≠ "" → o_index o = false →
  w_mkdir W = true → Forall (λ q, w_open W (fst (fst q)) = true) (plain_pages (o_text o) b) →
  ∃ k, ∀ n m fs, k ≤ n → k ≤ m → ∃ fs',
    match snd (written (plain_pages (o_text o) b)) with
    | None => build (reading D E) W o n m fs = (fs', Ok "") ∧
        ∀ f, assoc_get f fs' = put f (assoc_get f fs) (fst (written (plain_pages (o_text o) b)))
    | Some name => build (reading D E) W o n m fs = (fs', Err (FWrite (EPlugin "rendering"))) ∧ ∃ part,
        ∀ f, assoc_get f fs' = put f (assoc_get f fs) (fst (written (plain_pages (o_text o) b)) ++ [(name, part)])
    end.
Proof. intros. by eapply plain_write. Qed.
Print Assumptions plain_files.

(** With nothing missing that is every page. *)
Lemma written_all qs : Forall (λ q : string * string * list string, snd q = []) qs → written qs = (map fst qs, None).
Proof. induction 1 as [|[[f p] l] qs H _ IH]; [done|]. cbn [snd] in H. subst l. cbn [written]. by rewrite IH. Qed.
Theorem plain_all_files E W D o b t : base_env E → sec_fine b = true → on_disk D (o_in o) t → laid (on_disk D) (o_in o) b t →
  o_tag o = "" → o_path o = "" → o_text o ≠ "" → o_out o ≠ "" → o_index o = false →
  w_mkdir W = true → Forall (λ q, w_open W (fst (fst q)) = true) (plain_pages (o_text o) b) →
  Forall (λ q, snd q = []) (plain_pages (o_text o) b) → NoDup (map fst (map fst (plain_pages (o_text o) b))) →
  ∃ k, ∀ n m fs, k ≤ n → k ≤ m → ∃ fs', build (reading D E) W o n m fs = (fs', Ok "") ∧
    (∀ f page, (f, page) ∈ map fst (plain_pages (o_text o) b) → assoc_get f fs' = Some page) ∧
    (∀ f, f ∉ map fst (map fst (plain_pages (o_text o) b)) → assoc_get f fs' = assoc_get f fs).
Proof.
  intros HE Hf HD HL Ht Hp Hx Ho Hi Hm Hok Hno Hn. destruct (plain_files E W D o b t) as [k Hk]; try done.
  exists k. intros n m fs H1 H2. destruct (Hk n m fs H1 H2) as (fs' & H). rewrite (written_all _ Hno) in H. cbn [fst snd] in H. destruct H as [E1 E2].
  exists fs'. split; [done|]. split.
  - intros f pg Hfp. rewrite E2. by apply put_one.
  - intros f Hfp. rewrite E2. by apply put_other.
Qed.
Print Assumptions plain_all_files.

(** ** An example *)

Definition ex_plain : sec :=
  Sec [Txt "Notes"] [] true false [Par [[Txt "All of"]; [Txt "it."]]; Toc]
    [Sec [Txt "One"] [] false false [Par [[Txt "First."]]; Par [[Sty Inset [Txt "deep"]]]] [Sec [Txt "In it"] [] false false [Par [[Txt "Words."]]] []];
     Sec [Txt "Two"] ["b"] false false [] []].
Definition ex_plain_doc : string := show_doc (sec_tree ex_plain).

Example ex_plain_pages : map fst (plain_pages "txt" ex_plain) =
  [("notes.txt", "Notes" +:+ nls +:+ nls +:+ "NotesAll of it." +:+ nls +:+ nls +:+
      nls +:+ nls +:+ "1 One" +:+ nls +:+ nls +:+ nls +:+ nls +:+ "1.1 In it" +:+ nls +:+ nls +:+ nls +:+ nls +:+ nls +:+
      nls +:+ "2 Two" +:+ nls +:+ nls +:+ nls +:+ nls +:+ nls +:+ nls);
   ("one.txt", "One" +:+ nls +:+ nls +:+ "1 OneFirst." +:+ nls +:+ nls +:+ "    deep" +:+ nls +:+ nls +:+ nls +:+ nls +:+
      nls +:+ nls +:+ "1.1 In itWords." +:+ nls +:+ nls +:+ nls +:+ nls +:+ nls +:+ nls +:+ nls +:+ nls);
   ("b.txt", "Two" +:+ nls +:+ nls +:+ "2 Two" +:+ nls +:+ nls +:+ nls +:+ nls)].
Proof. vm_compute. reflexivity. Qed.

Lemma ex_plain_normal : normal (sec_tree ex_plain).
Proof.
  repeat first [ done | by apply nw_run; [|apply valid_ascii] | by apply nw_escape
    | match goal with |- narg _ (NSeq (map NPara _)) => apply na_paras end
    | apply np_last | apply nps_last | progress constructor ].
Qed.
Definition ex_plain_disk : disk := λ p, if String.eqb p "book.lit" then Some (7, ex_plain_doc) else None.
Example ex_plain_built :
  ∃ k, ∀ n m, k ≤ n → k ≤ m → ∃ fs', build (reading ex_plain_disk ex_env) ex_world (Options "book.lit" "out" "" "" false "txt") n m [("kept", "x")] = (fs', Ok "") ∧
    (∀ f page, (f, page) ∈ map fst (plain_pages "txt" ex_plain) → assoc_get f fs' = Some page) ∧ assoc_get "kept" fs' = Some "x".
Proof.
  destruct (book_text ex_plain ex_plain_normal) as [Hd Hv].
  destruct (plain_all_files ex_env ex_world ex_plain_disk (Options "book.lit" "out" "" "" false "txt") ex_plain (sec_tree ex_plain)) as [k Hk]; try done.
  - by exists 7, ex_plain_doc.
  - by apply laid_one.
  - by apply Forall_forall.
  - repeat constructor.
  - apply (bool_decide_unpack _). vm_compute. exact I.
  - exists k. intros n m H1 H2. destruct (Hk n m [("kept", "x")] H1 H2) as (fs' & E1 & E2 & E3). exists fs'. split; [exact E1|].
    split; [exact E2|]. rewrite E3; [done|]. apply (bool_decide_unpack _). vm_compute. exact I.
Qed.
(** A book with a reference has no text; the first page is written before that is found. *)
Example ex_lacks : sec_lacks ex_book = ["reference"; "reference"; "verbatim"; "italic"] ∧
  written (plain_pages "txt" (Sec [Txt "A"] [] true false [] [Sec [Txt "B"] [] false false [Par [[Ref "a" []]]] []])) =
    ([("a.txt", "A" +:+ nls +:+ nls +:+ "A" +:+ nls +:+ nls)], Some "b.txt").
Proof. split; vm_compute; reflexivity. Qed.

(** ** Titles *)

(** One would expect that the title of a section does not run into its text. *)
Theorem titles_apart_refuted : ∃ E W D o b t n m fs rest, base_env E ∧ sec_fine b = true ∧ on_disk D (o_in o) t ∧ laid (on_disk D) (o_in o) b t ∧
  title_of b = [Txt "Two"] ∧ build (reading D E) W o n m fs = (fs, Ok ("Two" +:+ nls +:+ nls +:+ "Twofold." +:+ rest)).
Proof.
  set (b := Sec [Txt "Two"] [] false false [Par [[Txt "fold."]]] []).
  assert (normal (sec_tree b)) as N.
  { repeat first [ done | by apply nw_run; [|apply valid_ascii] | by apply nw_escape
    | match goal with |- narg _ (NSeq (map NPara _)) => apply na_paras end
    | apply np_last | apply nps_last | progress constructor ]. }
  destruct (book_text b N) as [Hd Hv]. set (D := λ p, if String.eqb p "book.lit" then Some (7, show_doc (sec_tree b)) else None).
  assert (on_disk D "book.lit" (sec_tree b)) as HD by by exists 7, (show_doc (sec_tree b)).
  destruct (plain_prints ex_env ex_world D (Options "book.lit" "" "" "" false "txt") b (sec_tree b)) as [k Hk]; try done; [by apply laid_one|].
  eexists ex_env, ex_world, D, (Options "book.lit" "" "" "" false "txt"), b, (sec_tree b), k, k, [], _.
  split_and!; [done|done|done|by apply laid_one|done|]. rewrite (Hk k k [] (le_n _) (le_n _)). done.
Qed.
Print Assumptions titles_apart_refuted.
