(** C76: books with broken references. *)
From Coq Require Import Ascii String Sorted.
From stdpp Require Import base tactics relations strings list.
From Verif Require Import GoBase Ast Grammar Section ParseSpec Peg Evaluate Written WrittenProofs WrittenMore Render WriterProofs Html Json JsonSpec JsonProofs Command
  Book BookText BookLaid BookEval BookStore BookSections BookPlaces BookHtml BookBuild BookIndex Props_Book Props_Files Props_Index.
Local Open Scope string_scope. Local Open Scope list_scope.

(** ** With --allow-broken-references every book is built *)

(** [first_page], [pages] and [book_documents] say what is shown for a reference to
    something that there is none of, or more than one (Book.v, [span_html]; BookText.v,
    [called]). *)
Theorem broken_print E W D o b : base_env E → e_broken E = true → sec_fine b = true → book_at D (o_in o) b →
  o_tag o = "" → o_path o = "" → o_text o = "" → o_out o = "" →
  ∃ k, ∀ n m fs, k ≤ n → k ≤ m → build (reading D E) W o n m fs = (fs, Ok (first_page b)).
Proof. intros HE Hb Hf (t & HD & HL) Ht Hp Hx Ho. eapply build_prints; try done. intros tag _. by left. Qed.
Print Assumptions broken_print.

Theorem broken_files E W D o b : base_env E → e_broken E = true → sec_fine b = true → book_at D (o_in o) b →
  o_tag o = "" → o_path o = "" → o_text o = "" → o_out o ≠ "" → o_index o = false →
  w_mkdir W = true → Forall (λ p, w_open W (fst p) = true) (pages b) →
  ∃ k, ∀ n m fs, k ≤ n → k ≤ m → ∃ fs', build (reading D E) W o n m fs = (fs', Ok "") ∧
    ∀ f, assoc_get f fs' = put f (assoc_get f fs) (pages b).
Proof. intros HE Hb Hf (t & HD & HL) Ht Hp Hx Ho Hi Hm Hok. eapply build_files; try done. intros tag _. by left. Qed.
Print Assumptions broken_files.

Theorem broken_index E W D o b : base_env E → e_jumps E ≠ 0 → e_broken E = true → sec_fine b = true → book_at D (o_in o) b →
  o_tag o = "" → o_path o = "" → o_text o = "" → o_out o ≠ "" → o_index o = true →
  w_mkdir W = true → Forall (λ p, w_open W (fst p) = true) (pages b) → w_open W "search_index.json" = true →
  ∃ k, ∀ n m fs, k ≤ n → k ≤ m → ∃ fs' file ds ms, build (reading D E) W o n m fs = (fs', Ok "") ∧
    (∀ f, assoc_get f fs' = if String.eqb "search_index.json" f then Some file else put f (assoc_get f fs) (pages b)) ∧
    json_read file = Some (JObj ms) ∧ Forall2 JsonSpec.reads ds ms ∧ StronglySorted before (map fst ds) ∧
    ∀ tag d, (tag, d) ∈ ds ↔ kept (book_documents b) tag = Some d.
Proof.
  intros HE Hj Hb Hf Hat Ht Hp Hx Ho Hi Hm Hok Hop. destruct (book_index_kept E W D o b) as [k Hk]; try done; [intros tag _; by left|].
  exists k. intros n m fs Hn Hm'.
  destruct (Hk n m fs Hn Hm') as (fs' & idx & E1 & E2 & N & K). destruct (index_reads_mended (w_short W) idx N) as (es & ms & P & S & R & F).
  exists fs', (json_index (w_short W) idx), es, ms. do 5 (split; [done|]). intros tag d. rewrite P, <- K. split; [by apply assoc_get_in|by apply assoc_get_elem].
Qed.
Print Assumptions broken_index.

(** ** Without it *)

(** The first page is printed when its own references are to exactly one thing each,
    whatever the others are to. *)
Theorem sound_page_print E W D o b : base_env E → sec_fine b = true → book_at D (o_in o) b →
  o_tag o = "" → o_path o = "" → o_text o = "" → o_out o = "" →
  (∀ tag, tag ∈ page_refs b → ∃ e, refer (site b) tag = Some e) →
  ∃ k, ∀ n m fs, k ≤ n → k ≤ m → build (reading D E) W o n m fs = (fs, Ok (first_page b)).
Proof. intros HE Hf (t & HD & HL) Ht Hp Hx Ho Hr. eapply build_prints; try done. intros tag Htag. right. by apply Hr. Qed.
Print Assumptions sound_page_print.

(** Otherwise there is an error, which names the first of them that is not, and nothing
    is printed. *)
Theorem broken_page_refused E W D o b tag l : base_env E → e_broken E = false → sec_fine b = true → book_at D (o_in o) b →
  o_tag o = "" → o_path o = "" → o_text o = "" → o_out o = "" →
  missing (site b) (page_refs b) = tag :: l →
  ∃ k, ∀ n m fs, k ≤ n → k ≤ m → ∃ e, build (reading D E) W o n m fs = (fs, Err (FRender (RTag e))) ∧ refused (site b) tag e.
Proof.
  intros HE Hb Hf (t & HD & HL) Ht Hp Hx Ho Hm. destruct (build_print E HE W D o b t Hf HD HL Ht Hp Hx Ho) as [k Hk]. exists k.
  intros n m fs H1 H2. specialize (Hk n m fs H1 H2). unfold bad in Hk. by rewrite Hb, Hm in Hk.
Qed.
Print Assumptions broken_page_refused.

Lemma upto_first top l1 p tags l2 tag l : Forall (λ q, missing (site top) (snd q) = []) l1 → missing (site top) tags = tag :: l →
  upto false top (l1 ++ (p, tags) :: l2) = (map fst l1, Some (fst p, tag)).
Proof.
  intros F Ht. induction F as [|[p' tags'] l1 H F IH]; simpl.
  - by rewrite Ht.
  - simpl in H. by rewrite H, IH.
Qed.

(** A build of files ends at the first page with such a reference: the pages before it
    are written, its own file is begun, and all the other files, the search index among
    them, are as they were. *)
Theorem broken_files_refused E W D o b l1 p tags l2 tag l : base_env E → e_broken E = false → sec_fine b = true → book_at D (o_in o) b →
  o_tag o = "" → o_path o = "" → o_text o = "" → o_out o ≠ "" →
  w_mkdir W = true → Forall (λ p, w_open W (fst p) = true) (pages b) →
  zip (pages b) (pages_refs b) = l1 ++ (p, tags) :: l2 →
  Forall (λ q, missing (site b) (snd q) = []) l1 → missing (site b) tags = tag :: l →
  ∃ k, ∀ n m fs, k ≤ n → k ≤ m → ∃ fs' e part, build (reading D E) W o n m fs = (fs', Err (FWrite e)) ∧ refused (site b) tag e ∧
    ∀ f, assoc_get f fs' = put f (assoc_get f fs) (map fst l1 ++ [(fst p, part)]).
Proof.
  intros HE Hb Hf (t & HD & HL) Ht Hp Hx Ho Hmk Hok Hz F1 Hm. destruct (build_write E HE W D o b t Hf HD HL Ht Hp Hx Ho Hmk Hok) as (k & s & _ & _ & Hk).
  exists k. intros n m fs H1 H2. destruct (Hk n m fs H1 H2) as (fs' & H). rewrite Hb, Hz, (upto_first b l1 p tags l2 tag l F1 Hm) in H. simpl in H.
  destruct H as (e & part & H3 & H4 & H5). by exists fs', e, part.
Qed.
Print Assumptions broken_files_refused.

(** Every page with all its references comes up, in the order of [pages]. *)
Theorem pages_refs_all b : length (pages_refs b) = length (pages b) ∧ ∀ tag, tag ∈ concat (pages_refs b) ↔ tag ∈ sec_refs b.
Proof.
  split; [simpl; by rewrite below_length|]. intros tag. split.
  - intros Ht. apply elem_of_list_In, in_concat in Ht as (ts & Hts & Ht). apply elem_of_list_In in Hts, Ht. unfold pages_refs in Hts.
    apply elem_of_cons in Hts as [->|Hts]; [by apply page_refs_sec|by eapply refs_below_sec].
  - unfold pages_refs. simpl. induction b as [title tags split omit body subs IH] using sec_ind'. simpl.
    intros [Ht|Ht]%elem_of_app; apply elem_of_app; [left; apply elem_of_app; by left|].
    assert (tag ∈ flat_map page_refs subs ∨ tag ∈ concat (flat_map refs_below subs)) as Hor.
    { clear - IH Ht. induction IH as [|c l Hc _ IHl]; simpl in *; [by apply elem_of_nil in Ht|]. apply elem_of_app in Ht as [Ht|Ht].
      - apply Hc, elem_of_app in Ht as [Ht|Ht]; [left; apply elem_of_app; by left|right; rewrite concat_app; apply elem_of_app; by left].
      - destruct (IHl Ht) as [H|H]; [left; apply elem_of_app; by right|right; rewrite concat_app; apply elem_of_app; by right]. }
    assert (tag ∈ concat (flat_map refs_below subs) → tag ∈ concat (flat_map (λ c, (if cut_pages split then [page_refs c] else []) ++ refs_below c) subs)) as Hin.
    { clear. induction subs as [|c l IHl]; simpl; [done|]. rewrite !concat_app. intros [H|H]%elem_of_app; apply elem_of_app; [left; apply elem_of_app; by right|right; auto]. }
    destruct Hor as [H|H]; [|right; auto]. destruct (cut_pages split); [|left; apply elem_of_app; by right]. right. clear - H.
    induction subs as [|c l IHl]; simpl in *; [done|]. rewrite concat_app. apply elem_of_app in H as [H|H]; apply elem_of_app; [by left|right].
    apply elem_of_app. auto.
Qed.
Print Assumptions pages_refs_all.

(** ** An example *)

Definition ex_loose : sec :=
  Sec [Txt "Top"] [] true false [Par [[Txt "See "; Ref "one" []; Txt "."]]]
    [Sec [Txt "One"] [] false false [Par [[Txt "To "; Ref "none" []; Txt ", "; Ref "twice" [Txt "there"]]]] [];
     Sec [Txt "A"] ["twice"] false false [] [];
     Sec [Txt "B"] ["b"; "twice"] false false [Par [[Ref "nowhere" []]]] []].
Definition ex_loose_doc : string := show_doc (sec_tree ex_loose).
Definition ex_loose_disk (p : string) : option (nat * string) := if String.eqb p "top.lit" then Some (1, ex_loose_doc) else None.

Example ex_loose_fine : sec_fine ex_loose = true ∧ missing (site ex_loose) (page_refs ex_loose) = [] ∧
  map (missing (site ex_loose)) (pages_refs ex_loose) = [[]; ["none"; "twice"]; []; ["nowhere"]] ∧
  map fst (pages ex_loose) = ["top.html"; "one.html"; "twice.html"; "b.html"].
Proof. split_and!; vm_compute; reflexivity. Qed.
Example ex_loose_at : book_at ex_loose_disk "top.lit" ex_loose.
Proof. exists (sec_tree ex_loose). split; [in_file 1|by apply laid_one]. Qed.

Example ex_loose_page : snd <$> pages ex_loose !! 1 = Some
    ("<!DOCTYPE html>" +:+ nls +:+ "<html>" +:+ nls +:+ "  <head>" +:+ nls +:+
     "    <meta http-equiv=""content-type"" content=""text/html; charset=utf-8"" />" +:+ nls +:+
     "    <title>One</title>" +:+ nls +:+ "  </head>" +:+ nls +:+ "  <body>" +:+ nls +:+
     "    <h1 class=""section-header""><a id=""one""></a><span class=""section-number"">1 </span>One</h1>" +:+ nls +:+ nls +:+
     "<p>To <a href=""one.html#broken"">{broken reference: none}</a>, <a href=""one.html#broken"">there</a></p>" +:+ nls +:+ nls +:+ nls +:+ "  " +:+ nls +:+ nls +:+
     "  </body>" +:+ nls +:+ "</html>").
Proof. vm_compute; reflexivity. Qed.
Example ex_loose_reads : body_reads (names ex_loose) (body_of (Sec [] [] false false [Par [[Ref "none" []; Txt " "; Ref "twice" [Txt "there"]]]] [])) =
  "{broken reference: none} there" +:+ nls +:+ nls.
Proof. vm_compute; reflexivity. Qed.

(** Built with the flag, all four pages are written; without it, one. *)
Definition ex_env_broken : env := Env (λ _, None) (λ _, None) (λ _ name, base_method name) (λ _ _, false) true 1.
Example ex_loose_built :
  ∃ k, ∀ n m, k ≤ n → k ≤ m → ∃ fs', build (reading ex_loose_disk ex_env_broken) ex_world (Options "top.lit" "out" "" "" false "") n m [] = (fs', Ok "") ∧
    ∀ f, assoc_get f fs' = put f None (pages ex_loose).
Proof.
  destruct ex_loose_fine as (Hf & _).
  assert (Forall (λ p, w_open ex_world (fst p) = true) (pages ex_loose)) as Ho by (apply Forall_forall; intros ? _; reflexivity).
  assert (base_env ex_env_broken) as HE by done.
  destruct (broken_files ex_env_broken ex_world ex_loose_disk (Options "top.lit" "out" "" "" false "") ex_loose HE eq_refl Hf ex_loose_at
    eq_refl eq_refl eq_refl ltac:(discriminate) eq_refl eq_refl Ho) as [k Hk].
  exists k. intros n m H1 H2. exact (Hk n m [] H1 H2).
Qed.
Example ex_loose_refused :
  ∃ k, ∀ n m, k ≤ n → k ≤ m → ∃ fs' e part, build (reading ex_loose_disk ex_env) ex_world (Options "top.lit" "out" "" "" true "") n m [("b.html", "old")] =
      (fs', Err (FWrite e)) ∧ (∃ similar l, e = EUnknownTag "none" similar l) ∧
    assoc_get "top.html" fs' = Some (first_page ex_loose) ∧ assoc_get "one.html" fs' = Some part ∧ assoc_get "twice.html" fs' = None ∧
    assoc_get "b.html" fs' = Some "old" ∧ assoc_get "search_index.json" fs' = None.
Proof.
  destruct ex_loose_fine as (Hf & _).
  assert (Forall (λ p, w_open ex_world (fst p) = true) (pages ex_loose)) as Ho by (apply Forall_forall; intros ? _; reflexivity).
  assert (base_env ex_env) as HE by done.
  destruct (broken_files_refused ex_env ex_world ex_loose_disk (Options "top.lit" "out" "" "" true "") ex_loose
    [(("top.html", first_page ex_loose), ["one"])] (nth 1 (pages ex_loose) ("", "")) ["none"; "twice"] (drop 2 (zip (pages ex_loose) (pages_refs ex_loose)))
    "none" ["twice"] HE eq_refl Hf ex_loose_at eq_refl eq_refl eq_refl ltac:(discriminate) eq_refl Ho) as [k Hk];
    [vm_compute; reflexivity|constructor; [vm_compute; reflexivity|constructor]|vm_compute; reflexivity|].
  exists k. intros n m H1 H2. destruct (Hk n m [("b.html", "old")] H1 H2) as (fs' & e & part & E1 & E2 & E3). exists fs', e, part.
  split; [exact E1|]. split; [exact E2|]. rewrite !E3. split_and!; vm_compute; reflexivity.
Qed.
Example ex_loose_printed :
  ∃ k, ∀ n m fs, k ≤ n → k ≤ m → build (reading ex_loose_disk ex_env) ex_world (Options "top.lit" "" "" "" false "") n m fs = (fs, Ok (first_page ex_loose)).
Proof.
  destruct ex_loose_fine as (Hf & _). assert (base_env ex_env) as HE by done.
  apply (sound_page_print ex_env ex_world ex_loose_disk (Options "top.lit" "" "" "" false "") ex_loose HE Hf ex_loose_at eq_refl eq_refl eq_refl eq_refl).
  intros tag Ht. assert (tag ∈ ["one"]) as Ht' by exact Ht. apply elem_of_list_singleton in Ht' as ->. eexists; vm_compute; reflexivity.
Qed.
