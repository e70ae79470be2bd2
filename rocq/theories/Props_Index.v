(** C75: the search index of a book. *)
From Coq Require Import Ascii String Sorted.
From stdpp Require Import base tactics relations strings list.
From Verif Require Import GoBase Ast Grammar Section ParseSpec Peg Evaluate WrittenMore Render WriterProofs Html Json JsonSpec JsonProofs Command
  Book BookText BookLaid BookEval BookStore BookSections BookPlaces BookHtml BookBuild BookIndex Props_Book Props_Files.
Local Open Scope string_scope. Local Open Scope list_scope.

Lemma book_index_kept E W D o b : base_env E → e_jumps E ≠ 0 → sec_fine b = true → refers b (e_broken E) (sec_refs b) → book_at D (o_in o) b →
  o_tag o = "" → o_path o = "" → o_text o = "" → o_out o ≠ "" → o_index o = true →
  w_mkdir W = true → Forall (λ p, w_open W (fst p) = true) (pages b) → w_open W "search_index.json" = true →
  ∃ k, ∀ n m fs, k ≤ n → k ≤ m → ∃ fs' idx, build (reading D E) W o n m fs = (fs', Ok "") ∧
    (∀ f, assoc_get f fs' = if String.eqb "search_index.json" f then Some (json_index (w_short W) idx) else put f (assoc_get f fs) (pages b)) ∧
    NoDup (map fst idx) ∧ ∀ tag, assoc_get tag idx = kept (book_documents b) tag.
Proof.
  intros HE Hj Hf Hr (t & HD & HL) Ht Hp Hx Ho Hi Hm Hok Hop.
  destruct (build_writes E HE W D o b t Hf HD HL Ht Hp Hx Hr Ho Hm Hok) as (k & s & Hs & Hl & Hk). exists k. intros n m fs Hn Hm'.
  destruct (Hk n m fs Hn Hm') as (fs' & E1 & E2). destruct (e_jumps E) as [|j] eqn:Ej; [done|].
  destruct (index_of_book (e_similar E) (e_broken E) (st_heap s) (stored_wf _ _ _ Hs Hl) (stored_owned _ _ Hs Hl) b Hf Hs j Hr) as (idx & Hidx & N & K).
  exists (assoc_set "search_index.json" (json_index (w_short W) idx) fs'), idx. rewrite E1, Hi. unfold write_search_index. rewrite Hidx. simpl.
  rewrite Hop. split; [done|]. split; [|done]. intros f. by rewrite assoc_get_set, E2.
Qed.

(** ** A build with an index writes the pages and, in one more file, the documents *)

Theorem book_index E W D o b : base_env E → e_jumps E ≠ 0 → book_fine b → book_at D (o_in o) b →
  o_tag o = "" → o_path o = "" → o_text o = "" → o_out o ≠ "" → o_index o = true →
  w_mkdir W = true → Forall (λ p, w_open W (fst p) = true) (pages b) → w_open W "search_index.json" = true →
  ∃ k, ∀ n m fs, k ≤ n → k ≤ m → ∃ fs' file ds ms, build (reading D E) W o n m fs = (fs', Ok "") ∧
    (∀ f, assoc_get f fs' = if String.eqb "search_index.json" f then Some file else put f (assoc_get f fs) (pages b)) ∧
    json_read file = Some (JObj ms) ∧ Forall2 JsonSpec.reads ds ms ∧ StronglySorted before (map fst ds) ∧
    ∀ tag d, (tag, d) ∈ ds ↔ kept (book_documents b) tag = Some d.
Proof.
  intros HE Hj Hb Hat Ht Hp Hx Ho Hi Hm Hok Hop. destruct (book_index_kept E W D o b) as [k Hk]; try done; [apply Hb|by apply fine_refers|]. exists k. intros n m fs Hn Hm'.
  destruct (Hk n m fs Hn Hm') as (fs' & idx & E1 & E2 & N & K). destruct (index_reads_mended (w_short W) idx N) as (es & ms & P & S & R & F).
  exists fs', (json_index (w_short W) idx), es, ms. do 5 (split; [done|]). intros tag d. rewrite P, <- K. split; [by apply assoc_get_in|by apply assoc_get_elem].
Qed.
Print Assumptions book_index.

(** When everything is UTF-8, the file reads as the documents themselves. *)
Theorem book_index_exact E W D o b : base_env E → e_jumps E ≠ 0 → book_fine b → book_at D (o_in o) b →
  o_tag o = "" → o_path o = "" → o_text o = "" → o_out o ≠ "" → o_index o = true →
  w_mkdir W = true → Forall (λ p, w_open W (fst p) = true) (pages b) → w_open W "search_index.json" = true →
  Forall entry_utf8 (book_documents b) →
  ∃ k, ∀ n m fs, k ≤ n → k ≤ m → ∃ fs' file ds, build (reading D E) W o n m fs = (fs', Ok "") ∧
    (∀ f, assoc_get f fs' = if String.eqb "search_index.json" f then Some file else put f (assoc_get f fs) (pages b)) ∧
    json_read file = Some (JObj (map entry_json ds)) ∧ StronglySorted before (map fst ds) ∧
    ∀ tag d, (tag, d) ∈ ds ↔ kept (book_documents b) tag = Some d.
Proof.
  intros HE Hj Hb Hat Ht Hp Hx Ho Hi Hm Hok Hop Hu. destruct (book_index_kept E W D o b) as [k Hk]; try done; [apply Hb|by apply fine_refers|]. exists k. intros n m fs Hn Hm'.
  destruct (Hk n m fs Hn Hm') as (fs' & idx & E1 & E2 & N & K). destruct (index_reads_back (w_short W) idx N) as (es & P & S & R).
  - apply Forall_forall. intros [tag d] Hin. apply (assoc_get_in _ _ _ N) in Hin. rewrite K in Hin. unfold kept in Hin.
    destruct (last (List.filter (λ d, String.eqb (fst d) tag) (book_documents b))) as [[tag' d']|] eqn:El; [|done]. injection Hin as ->.
    apply last_Some_elem_of, elem_of_list_In, filter_In in El as [El Heq]. apply String.eqb_eq in Heq. simpl in Heq. subst tag'.
    rewrite Forall_forall in Hu. apply Hu. by apply elem_of_list_In.
  - exists fs', (json_index (w_short W) idx), es. do 4 (split; [done|]). intros tag d. rewrite P, <- K. split; [by apply assoc_get_in|by apply assoc_get_elem].
Qed.
Print Assumptions book_index_exact.

(** Every tag and every anchor can be found. *)
Theorem book_index_complete b tag e : refer (site b) tag = Some e → ∃ d, kept (book_documents b) tag = Some d ∧ sd_location d = en_url e.
Proof.
  assert (∀ ns b pl, map fst (documents ns pl b) = map en_tag (entries pl b) ∧ map (sd_location ∘ snd) (documents ns pl b) = map en_url (entries pl b)) as Hsame.
  { intros ns. clear. induction b as [title tags split omit body subs IH] using sec_ind'. intros pl.
    set (b := Sec title tags split omit body subs) in *. rewrite documents_eq, BookPlaces.entries_eq. change (subs_of b) with subs. clearbody b.
    rewrite !map_app, !map_map, <- !(assoc_L (++)). simpl.
    assert (∀ k, map fst (concat (mapi (λ k c, documents ns (sub_place pl b k c) c) k subs)) = map en_tag (concat (mapi (λ k c, entries (sub_place pl b k c) c) k subs)) ∧
      map (sd_location ∘ snd) (concat (mapi (λ k c, documents ns (sub_place pl b k c) c) k subs)) = map en_url (concat (mapi (λ k c, entries (sub_place pl b k c) c) k subs))) as Hk.
    { induction IH as [|c l Hc _ IHl]; intros k; [done|]. simpl. rewrite !map_app. destruct (Hc (sub_place pl b k c)) as [-> ->]. by destruct (IHl (S k)) as [-> ->]. }
    by destruct (Hk 1) as [-> ->]. }
  intros Hr. unfold refer, site in Hr. destruct (Hsame (names b) b (top_place b)) as [H1 H2]. fold (book_documents b) in H1, H2.
  revert H1 H2 Hr. generalize (book_documents b) (entries (top_place b) b). clear. intros ds es H1 H2 Hr.
  assert (∃ d, List.filter (λ d, String.eqb (fst d) tag) ds = [d] ∧ sd_location (snd d) = en_url e) as (d & Hd & Hl); [|by exists (snd d); unfold kept; rewrite Hd].
  destruct (List.filter (λ e, String.eqb (en_tag e) tag) es) as [|e' [|? ?]] eqn:El; try done. injection Hr as ->.
  revert es H1 H2 El. induction ds as [|d ds IH]; intros [|x es] H1 H2 El; simpl in *; try done.
  injection H1 as H1a H1b. injection H2 as H2a H2b. rewrite H1a. destruct (String.eqb (en_tag x) tag); [|by apply (IH es)].
  injection El as -> El. exists d. split; [|done]. f_equal. clear - H1b El. revert es H1b El.
  induction ds as [|d ds IH]; intros [|x es] H1 El; simpl in *; try done. injection H1 as H1a H1b. rewrite H1a.
  destruct (String.eqb (en_tag x) tag); [done|by apply (IH es)].
Qed.
Print Assumptions book_index_complete.

(** ** An example *)

Definition ex_env1 : env := Env (λ _, None) (λ _, None) (λ _ name, base_method name) (λ _ _, false) false 1.

Lemma ascii_entries ds : forallb (λ e, forallb (sforall ascii7)
    [fst e; sd_location (snd e); sd_title (snd e); sd_text (snd e); sd_section_tag (snd e)]) ds = true → Forall entry_utf8 ds.
Proof.
  induction ds as [|e ds IH]; [constructor|]. cbn [forallb]. intros [H1 H2]%andb_true_iff. constructor; [|by apply IH].
  repeat (apply andb_true_iff in H1 as [? H1]). repeat split; by apply valid_ascii.
Qed.

Example ex_documents : map fst (book_documents ex_book) = ["my-book"; "part-a"; "x"; "deep"; "d"; "b"; "last"] ∧
  kept (book_documents ex_book) "my-book" = Some (SearchDoc "my-book.html" "My Book" ("See B & C and this. a+b" +:+ nls +:+ nls) 0 "my-book") ∧
  kept (book_documents ex_book) "x" = Some (SearchDoc "part-a.html#x" "x" ("Some words." +:+ nls +:+ nls +:+ "1. one" +:+ nls +:+ nls +:+ "2. two" +:+ nls +:+ nls) 1 "part-a") ∧
  kept (book_documents ex_book) "d" = Some (SearchDoc "part-a.html#deep" "Deep" ("x = 1" +:+ nls) 2 "deep").
Proof. split_and!; vm_compute; reflexivity. Qed.

Example ex_index_built :
  ∃ k, ∀ n m, k ≤ n → k ≤ m → ∃ fs' file ds, build (reading ex_disk ex_env1) ex_world
      (Options "/src/main.lit" "out" "" "" true "") n m [] = (fs', Ok "") ∧
    assoc_get "search_index.json" fs' = Some file ∧ json_read file = Some (JObj (map entry_json ds)) ∧
    ∀ tag d, (tag, d) ∈ ds ↔ kept (book_documents ex_book) tag = Some d.
Proof.
  destruct ex_book_fine as [Hb _].
  assert (Forall entry_utf8 (book_documents ex_book)) as Hu by (apply ascii_entries; vm_compute; reflexivity).
  assert (Forall (λ p, w_open ex_world (fst p) = true) (pages ex_book)) as Ho by (apply Forall_forall; intros ? _; reflexivity).
  assert (base_env ex_env1) as HE by done.
  destruct (book_index_exact ex_env1 ex_world ex_disk (Options "/src/main.lit" "out" "" "" true "") ex_book HE ltac:(discriminate) Hb ex_book_at
    eq_refl eq_refl eq_refl ltac:(discriminate) eq_refl eq_refl Ho eq_refl Hu) as [k Hk].
  exists k. intros n m H1 H2. destruct (Hk n m [] H1 H2) as (fs' & file & ds & E1 & E2 & E3 & _ & E4). exists fs', file, ds.
  split; [exact E1|]. split; [exact (E2 "search_index.json")|]. split; [exact E3|exact E4].
Qed.
