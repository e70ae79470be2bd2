(** C74: books in several files. *)
From Coq Require Import Ascii String.
From stdpp Require Import base tactics relations strings list.
From Verif Require Import GoBase Ast Grammar Section ParseSpec Peg Evaluate Written WrittenProofs WrittenMore Render WriterProofs Html Command
  Book BookLaid BookEval BookSections BookHtml BookBuild Props_Book.
Local Open Scope string_scope. Local Open Scope list_scope.

(** ** The pages do not show how the book is split into files *)

Theorem parts_print E W D o b : base_env E → book_fine b → book_at D (o_in o) b →
  o_tag o = "" → o_path o = "" → o_text o = "" → o_out o = "" →
  ∃ k, ∀ n m fs, k ≤ n → k ≤ m → build (reading D E) W o n m fs = (fs, Ok (first_page b)).
Proof.
  intros HE Hb (t & HD & HL) Ht Hp Hx Ho. eapply build_prints; try done; [apply Hb|].
  intros tag Htag. apply (fine_refers b (e_broken E) Hb). by apply page_refs_sec.
Qed.
Print Assumptions parts_print.

Theorem parts_files E W D o b : base_env E → book_fine b → book_at D (o_in o) b →
  o_tag o = "" → o_path o = "" → o_text o = "" → o_out o ≠ "" → o_index o = false →
  w_mkdir W = true → Forall (λ p, w_open W (fst p) = true) (pages b) →
  ∃ k, ∀ n m fs, k ≤ n → k ≤ m → ∃ fs', build (reading D E) W o n m fs = (fs', Ok "") ∧
    ∀ f, assoc_get f fs' = put f (assoc_get f fs) (pages b).
Proof.
  intros HE Hb (t & HD & HL) Ht Hp Hx Ho Hi Hm Hok. eapply build_files; try done; [apply Hb|by apply fine_refers].
Qed.
Print Assumptions parts_files.

(** Two ways of splitting the same book, on two disks. *)
Theorem parts_same E W D1 D2 o1 o2 b : base_env E → book_fine b → book_at D1 (o_in o1) b → book_at D2 (o_in o2) b →
  o_tag o1 = "" → o_path o1 = "" → o_text o1 = "" → o_out o1 ≠ "" → o_index o1 = false →
  o_tag o2 = "" → o_path o2 = "" → o_text o2 = "" → o_out o2 ≠ "" → o_index o2 = false →
  w_mkdir W = true → Forall (λ p, w_open W (fst p) = true) (pages b) →
  ∃ k, ∀ n m fs, k ≤ n → k ≤ m → ∃ fs1 fs2, build (reading D1 E) W o1 n m fs = (fs1, Ok "") ∧
    build (reading D2 E) W o2 n m fs = (fs2, Ok "") ∧ ∀ f, assoc_get f fs1 = assoc_get f fs2.
Proof.
  intros HE Hb H1 H2 Ht1 Hp1 Hx1 Ho1 Hi1 Ht2 Hp2 Hx2 Ho2 Hi2 Hm Hok.
  destruct (parts_files E W D1 o1 b) as [k1 K1]; try done. destruct (parts_files E W D2 o2 b) as [k2 K2]; try done.
  exists (Nat.max k1 k2). intros n m fs Hn Hm'. destruct (K1 n m fs) as (fs1 & E1 & G1); [lia..|]. destruct (K2 n m fs) as (fs2 & E2 & G2); [lia..|].
  exists fs1, fs2. split; [done|]. split; [done|]. intros f. by rewrite G1, G2.
Qed.
Print Assumptions parts_same.

(** ** An example *)

(** The book of Props_Book.v in four files, two of them in a directory below; the
    second of these is named as it is found from the first. *)
Definition ex_main : string :=
  "{\title{My Book}}" +:+ nls +:+ nls +:+ "{\split-sections}" +:+ nls +:+ nls +:+
  "See {\reference{b}} and {\reference{x}{this}}." +:+ nls +:+ "{\code{a+b}}" +:+ nls +:+ nls +:+
  "{\table-of-contents}" +:+ nls +:+ nls +:+
  "{\include-section{parts/a.lit}}" +:+ nls +:+ nls +:+ "{\include-section{b.lit}}".
Definition ex_a : string :=
  "{\title{Part {\italic{A}}}}" +:+ nls +:+ nls +:+ "Some {\target{x}}words." +:+ nls +:+ nls +:+
  "{\ordered-list{one}{{\link{two}{http://x.y}}}}" +:+ nls +:+ nls +:+ "{\include-section{deep.lit}}".
Definition ex_deep : string :=
  "{\title{Deep}{deep}{d}}" +:+ nls +:+ nls +:+ "{\code{{" +:+ nls +:+ "x = 1" +:+ nls +:+ "}}}".
Definition ex_b : string :=
  "{\title{B & C}{b}}" +:+ nls +:+ nls +:+ "{\omit-children-from-table-of-contents}" +:+ nls +:+ nls +:+
  "Back to {\reference{d}}" +:+ nls +:+ nls +:+ "{\section{" +:+ nls +:+ "{\title{Last}}}}".
Definition ex_disk (p : string) : option (nat * string) :=
  if String.eqb p "/src/main.lit" then Some (1, ex_main) else
  if String.eqb p "/src/parts/a.lit" then Some (2, ex_a) else
  if String.eqb p "/src/parts/deep.lit" then Some (1, ex_deep) else
  if String.eqb p "/src/b.lit" then Some (4, ex_b) else None.

Lemma on_disk_text D path t mt : normal t → map (map (map erase)) t = t → D path = Some (mt, show_doc t) → on_disk D path t.
Proof.
  intros Hn He HD. exists mt, (show_doc t). split; [done|]. apply normal_written in Hn. split; [|by eapply written_valid].
  rewrite <- He at 1. by apply written_document.
Qed.

Ltac is_normal := repeat first [ done | by apply nw_run; [|apply valid_ascii] | by apply nw_escape
    | match goal with |- narg _ (NSeq (map NPara _)) => apply na_paras end
    | apply np_last | apply nps_last | progress constructor ].
Ltac in_file mt := apply (on_disk_text _ _ _ mt); [is_normal|vm_compute; reflexivity|vm_compute; reflexivity].

Definition ex_deep_sec := Sec [Txt "Deep"] ["deep"; "d"] false false [Cod [[Txt ""; Txt "x = 1"]]] [].
Definition ex_b_sec := Sec [Txt "B & C"] ["b"] false true [Par [[Txt "Back to "; Ref "d" []]]] [Sec [Txt "Last"] [] false false [] []].
Definition ex_a_tree : tree := [ [[call "title" [NSeq [NString "Part "; call "italic" [NSeq [NString "A"]]]]]];
  [[NString "Some "; call "target" [NSeq [NString "x"]]; NString "words."]];
  [[call "ordered-list" [NSeq [NString "one"]; NSeq [call "link" [NSeq [NString "two"]; NSeq [NString "http://x.y"]]]]]];
  [[call "include-section" [NSeq [NString "deep.lit"]]]] ].
Definition ex_main_tree : tree := sec_top false ex_book [ [[call "include-section" [NSeq [NString "parts/a.lit"]]]]; [[call "include-section" [NSeq [NString "b.lit"]]]] ].

Example ex_book_top : book_top ex_disk "/src/main.lit" false ex_book.
Proof.
  exists [ [[call "include-section" [NSeq [NString "parts/a.lit"]]]]; [[call "include-section" [NSeq [NString "b.lit"]]]] ]. split; [in_file 1|]. split; [done|]. simpl.
  eapply (lays_there _ _ _ "parts/a.lit" _ _ ex_a_tree).
  - change (beside "/src/main.lit" "parts/a.lit") with "/src/parts/a.lit". in_file 2.
  - change (beside "/src/main.lit" "parts/a.lit") with "/src/parts/a.lit".
    change ex_a_tree with (sec_top false (Sec [Txt "Part "; Sty Italic [Txt "A"]] [] false false
       [Par [[Txt "Some "; Anc "x" []; Txt "words."]]; Lst true [[Txt "one"]; [Lnk [Txt "two"] "http://x.y"]]]
       [Sec [Txt "Deep"] ["deep"; "d"] false false [Cod [[Txt ""; Txt "x = 1"]]] []]) [[[call "include-section" [NSeq [NString "deep.lit"]]]]]).
    constructor; [done|]. simpl. eapply (lays_there _ _ _ "deep.lit" _ _ (sec_tree ex_deep_sec)); [|by apply laid_one|constructor].
    change (beside "/src/parts/a.lit" "deep.lit") with "/src/parts/deep.lit". in_file 1.
  - eapply (lays_there _ _ _ "b.lit" _ _ (sec_tree ex_b_sec)); [|by apply laid_one|constructor].
    change (beside "/src/main.lit" "b.lit") with "/src/b.lit". in_file 4.
Qed.
Lemma book_top_at D path single b : book_top D path single b → book_at D path b.
Proof. intros (ts & H1 & H2 & H3). exists (sec_top single b ts). split; [done|]. by constructor. Qed.
Example ex_book_at : book_at ex_disk "/src/main.lit" ex_book.
Proof. exact (book_top_at _ _ _ _ ex_book_top). Qed.

Example ex_parts_built :
  ∃ k, ∀ n m, k ≤ n → k ≤ m → ∃ fs', build (reading ex_disk ex_env) ex_world
      (Options "/src/main.lit" "out" "" "" false "") n m [] = (fs', Ok "") ∧
    ∀ f page, (f, page) ∈ pages ex_book → assoc_get f fs' = Some page.
Proof.
  destruct ex_book_fine as [Hb Hu].
  destruct (parts_files ex_env ex_world ex_disk (Options "/src/main.lit" "out" "" "" false "") ex_book) as [k Hk]; try done;
    [apply ex_book_at|by apply Forall_forall|].
  exists k. intros n m H1 H2. destruct (Hk n m [] H1 H2) as (fs' & E1 & E2). exists fs'. split; [exact E1|].
  intros f pg Hf. rewrite E2. by apply put_one.
Qed.
