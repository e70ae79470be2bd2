(** C84: a section of a book on its own, and books in the server. *)
From Coq Require Import Ascii String Sorted.
From stdpp Require Import base tactics relations strings list.
From Verif Require Import GoBase Ast Grammar Section ParseSpec Peg Evaluate Written WrittenProofs WrittenMore Render WriterProofs Html TextRender Json JsonSpec JsonProofs Command
  Templates Tmpl TmplExec Server Serve Props_Server Props_Serve
  Book BookText BookLaid BookEval BookStore BookSections BookPlaces BookHtml BookBuild BookIndex BookPlain BookPlainProofs BookChoose BookChooseProofs BookServe Props_Book Props_Files Props_Index.
Local Open Scope string_scope. Local Open Scope list_scope.

(** The book is in one file or several; its references resolve, except where the
    broken ones are told. *)

(** ** Printing *)

(** With --section-tag, the first section in the text that has the tag, or has an
    anchor of that name in it, is shown, at its place in the whole book: its number,
    its links and what it refers to are as in the book. *)
Theorem section_prints E W D o b : base_env E → sec_fine b = true → book_at D (o_in o) b →
  o_tag o ≠ "" → o_text o = "" → o_out o = "" →
  ∃ k, ∀ n m fs, k ≤ n → k ≤ m →
    match tagged b (o_tag o) with
    | [] => build (reading D E) W o n m fs = (fs, Err (FUnknownTag (o_tag o)))
    | (pl, c) :: _ =>
      match (if e_broken E then [] else missing (site b) (page_refs c)) with
      | [] => build (reading D E) W o n m fs = (fs, Ok (page_of (site b) pl c))
      | tag :: _ => ∃ e, build (reading D E) W o n m fs = (fs, Err (FRender (RTag e))) ∧ refused (site b) tag e
      end
    end.
Proof. intros HE Hf (t & HD & HL) Ht Hx Ho. exact (tagged_print E HE W D b t (o_in o) Hf HD HL o eq_refl Ht Hx Ho). Qed.
Print Assumptions section_prints.

Theorem section_prints_text E W D o b : base_env E → sec_fine b = true → book_at D (o_in o) b →
  o_tag o ≠ "" → o_text o ≠ "" → o_out o = "" →
  ∃ k, ∀ n m fs, k ≤ n → k ≤ m →
    build (reading D E) W o n m fs = (fs, match tagged b (o_tag o) with
      | [] => Err (FUnknownTag (o_tag o))
      | (pl, c) :: _ => match sec_lacks c with [] => Ok (page_plain (pl_number pl) c) | name :: _ => Err (FRender (RTemplate name)) end
      end).
Proof. intros HE Hf (t & HD & HL) Ht Hx Ho. exact (tagged_print_text E HE W D b t (o_in o) Hf HD HL o eq_refl Ht Hx Ho). Qed.
Print Assumptions section_prints_text.

(** ** Writing *)

Lemma marked_refs c : ∀ pl n q tag, (n, q) ∈ marks pl c → tag ∈ sec_refs (snd q) → tag ∈ sec_refs c.
Proof.
  induction c as [title tags split omit body subs IH] using sec_ind'. intros pl n q tag. rewrite marks_eq. intros [Hin|Hin]%elem_of_app Ht.
  { apply elem_of_list_fmap in Hin as (? & [= _ ->] & _). done. }
  revert Hin. set (b := Sec title tags split omit body subs) in *. change (subs_of b) with subs. assert (∀ t, t ∈ flat_map sec_refs subs → t ∈ sec_refs b) as Hb.
  { intros t Hi. change (sec_refs b) with (flat_map piece_refs body ++ flat_map sec_refs subs). apply elem_of_app. by right. }
  intros Hin. apply Hb. clear Hb. clearbody b. revert Hin. generalize 1. induction IH as [|c l Hc _ IHl]; intros k; [by intros ?%elem_of_nil|]. cbn [mapi concat flat_map].
  intros [Hin|Hin]%elem_of_app; apply elem_of_app; [left; by eapply Hc|right; by eapply IHl].
Qed.
Lemma from_refers b q n : book_fine b → (n, q) ∈ marks (top_place b) b → ∀ broken, Forall (refers b broken) (refs_from q).
Proof.
  intros [_ Hr] Hin broken. apply Forall_forall. intros tags Htags tag Htag. right. apply Hr. apply (marked_refs _ _ _ _ _ Hin). unfold refs_from in Htags. apply elem_of_app in Htags as [Htags|Htags].
  - destruct (pl_own (fst q)); [|by apply elem_of_nil in Htags]. apply elem_of_list_singleton in Htags as ->. by apply page_refs_sec.
  - by eapply refs_below_sec.
Qed.
Lemma tagged_marked b tag q qs : tagged b tag = q :: qs → (tag, q) ∈ marks (top_place b) b.
Proof.
  unfold tagged. destruct (List.filter _ _) as [|[n q'] l] eqn:El; [done|]. intros [= <- _].
  assert ((n, q') ∈ List.filter (λ m, String.eqb (fst m) tag) (marks (top_place b) b)) as Hin by (rewrite El; left).
  apply elem_of_list_In, filter_In in Hin as [Hin He]. cbn [fst] in He. apply String.eqb_eq in He as ->. by apply elem_of_list_In.
Qed.

Lemma section_write E W D o b q qs : base_env E → book_fine b → book_at D (o_in o) b →
  o_tag o ≠ "" → tagged b (o_tag o) = q :: qs → o_text o = "" → o_out o ≠ "" →
  w_mkdir W = true → Forall (λ p, w_open W (fst p) = true) (pages_from b q) →
  ∃ k s, stored true (st_heap s) None b 0 ∧ TreeSpec.wf (st_heap s) ∧ QueryProofs.tags_owned (st_heap s) ∧ ∀ n m fs, k ≤ n → k ≤ m → ∃ fs',
    build (reading D E) W o n m fs = (if o_index o then
      match write_search_index (w_short W) (cstring (e_similar E) (e_broken E) (st_heap s) (e_jumps E)) (st_heap s) (w_open W) "html" 0 "search_index.json" fs' with
      | Ok fs => (fs, Ok "") | Err e => (fs', Err (FIndex e)) | Panic => (fs', Panic) | NoFuel => (fs', NoFuel) end else (fs', Ok "")) ∧
    ∀ f, assoc_get f fs' = put f (assoc_get f fs) (pages_from b q).
Proof.
  intros HE Hb (t & HD & HL) Ht Hq Hx Ho Hm Hok.
  destruct (tagged_write E HE W D b t (o_in o) (proj1 Hb) HD HL o eq_refl Ht q qs Hq Hx Ho Hm Hok) as (k & s & Hs & Hw & Hto & Hk).
  exists k, s. do 3 (split; [done|]). intros n m fs Hn Hm'. destruct (Hk n m fs Hn Hm') as (fs' & H).
  assert (length (pages_from b q) = length (refs_from q)) as Hl.
  { destruct q as [pl c]. unfold pages_from, refs_from. cbn [fst snd]. rewrite !app_length, (below_length b c pl). by destruct (pl_own pl). }
  rewrite upto_all in H; [|rewrite snd_zip by lia; eapply from_refers; [done|by eapply tagged_marked]]. rewrite fst_zip in H by lia. by exists fs'.
Qed.

(** With --out, its pages and those of the sections below are written, as in a build of
    the whole book, and no others. *)
Theorem section_files E W D o b q qs : base_env E → book_fine b → book_at D (o_in o) b →
  o_tag o ≠ "" → tagged b (o_tag o) = q :: qs → o_text o = "" → o_out o ≠ "" → o_index o = false →
  w_mkdir W = true → Forall (λ p, w_open W (fst p) = true) (pages_from b q) →
  ∃ k, ∀ n m fs, k ≤ n → k ≤ m → ∃ fs', build (reading D E) W o n m fs = (fs', Ok "") ∧
    ∀ f, assoc_get f fs' = put f (assoc_get f fs) (pages_from b q).
Proof.
  intros HE Hb Hat Ht Hq Hx Ho Hi Hm Hok. destruct (section_write E W D o b q qs) as (k & s & _ & _ & _ & Hk); try done.
  exists k. rewrite Hi in Hk. exact Hk.
Qed.
Print Assumptions section_files.

Theorem section_pages b tag q qs : tagged b tag = q :: qs → ∀ f page, (f, page) ∈ pages_from b q → (f, page) ∈ pages b.
Proof.
  intros Hq f page Hin. apply (from_below b b (top_place b) tag q); [by eapply tagged_marked|done].
Qed.
Print Assumptions section_pages.

Theorem section_files_text E W D o b q qs : base_env E → sec_fine b = true → book_at D (o_in o) b →
  o_tag o ≠ "" → tagged b (o_tag o) = q :: qs → o_text o ≠ "" → o_out o ≠ "" → o_index o = false →
  w_mkdir W = true → Forall (λ q, w_open W (fst (fst q)) = true) (plain_from (o_text o) q) →
  ∃ k, ∀ n m fs, k ≤ n → k ≤ m → ∃ fs',
    match snd (BookPlain.written (plain_from (o_text o) q)) with
    | None => build (reading D E) W o n m fs = (fs', Ok "") ∧
        ∀ f, assoc_get f fs' = put f (assoc_get f fs) (fst (BookPlain.written (plain_from (o_text o) q)))
    | Some name => build (reading D E) W o n m fs = (fs', Err (FWrite (EPlugin "rendering"))) ∧ ∃ part,
        ∀ f, assoc_get f fs' = put f (assoc_get f fs) (fst (BookPlain.written (plain_from (o_text o) q)) ++ [(name, part)])
    end.
Proof. intros HE Hf (t & HD & HL) Ht Hq Hx Ho Hi Hm Hok. exact (tagged_write_text E HE W D b t (o_in o) Hf HD HL o eq_refl Ht q qs Hq Hx Ho Hm Hok Hi). Qed.
Print Assumptions section_files_text.

(** The search index is that of the whole book. *)
Theorem section_index E W D o b q qs : base_env E → e_jumps E ≠ 0 → book_fine b → book_at D (o_in o) b →
  o_tag o ≠ "" → tagged b (o_tag o) = q :: qs → o_text o = "" → o_out o ≠ "" → o_index o = true →
  w_mkdir W = true → Forall (λ p, w_open W (fst p) = true) (pages_from b q) → w_open W "search_index.json" = true →
  ∃ k, ∀ n m fs, k ≤ n → k ≤ m → ∃ fs' file ds ms, build (reading D E) W o n m fs = (fs', Ok "") ∧
    (∀ f, assoc_get f fs' = if String.eqb "search_index.json" f then Some file else put f (assoc_get f fs) (pages_from b q)) ∧
    json_read file = Some (JObj ms) ∧ Forall2 JsonSpec.reads ds ms ∧ StronglySorted before (map fst ds) ∧
    ∀ tag d, (tag, d) ∈ ds ↔ kept (book_documents b) tag = Some d.
Proof.
  intros HE Hj Hb Hat Ht Hq Hx Ho Hi Hm Hok Hop. destruct (section_write E W D o b q qs) as (k & s & Hs & Hw & Hto & Hk); try done.
  exists k. intros n m fs Hn Hm'. destruct (Hk n m fs Hn Hm') as (fs' & E1 & E2). destruct (e_jumps E) as [|j] eqn:Ej; [done|].
  destruct (index_of_book (e_similar E) (e_broken E) (st_heap s) Hw Hto b (proj1 Hb) Hs j (fine_refers _ _ Hb)) as (idx & Hidx & N & K).
  destruct (index_reads_mended (w_short W) idx N) as (es & ms & P & S & R & F).
  exists (assoc_set "search_index.json" (json_index (w_short W) idx) fs'), (json_index (w_short W) idx), es, ms. rewrite E1, Hi. unfold write_search_index. rewrite Hidx. simpl.
  rewrite Hop. split; [done|]. split; [intros f; by rewrite assoc_get_set, E2|]. do 3 (split; [done|]).
  intros tag d. rewrite P, <- K. split; [by apply assoc_get_in|by apply assoc_get_elem].
Qed.
Print Assumptions section_index.

(** ** The server *)

(** After any requests and changes of the files, one for NAME.html shows the first
    section tagged NAME in the book as it is now. *)
Theorem server_shows E W D book b Es d ok sv req name : base_env E → sec_fine b = true → book_at D book b →
  served book false Es d ok sv → follows Es (reading D E) → has_prefix "/" req = true → Props_Server.names "html" req name →
  ∃ k, ∀ n m, k ≤ n → k ≤ m →
    let reply := (serve_request (reading D E) W book n m None req sv).2 in
    match tagged b name with
    | [] => reply = Ok RStatic
    | (pl, c) :: _ =>
      match (if e_broken E then [] else missing (site b) (page_refs c)) with
      | [] => reply = Ok (RPage (page_of (site b) pl c))
      | tag :: _ => ∃ e, reply = Ok (RPageFailed (RTag e)) ∧ refused (site b) tag e
      end
    end.
Proof.
  intros HE Hf (t & HD & HL) Hs Hfo Hp Hn. apply (request_names _ _ _ Hp) in Hn.
  destruct (new_serves E HE W D b t book Hf HD HL req name Hn) as [k Hk]. exists k. intros n m H1 H2. specialize (Hk n m H1 H2). cbv zeta in *.
  rewrite (server_forgets book false Es d ok sv (reading D E) W n m [] req Hs Hfo ltac:(done)). exact Hk.
Qed.
Print Assumptions server_shows.

(** So every page of a book whose tags differ is had by its file name. *)
Theorem server_pages E W D book b Es d ok sv f page : base_env E → book_fine b → book_at D book b →
  served book false Es d ok sv → follows Es (reading D E) → NoDup (map fst (marks (top_place b) b)) → (f, page) ∈ pages b →
  ∃ k, ∀ n m, k ≤ n → k ≤ m → (serve_request (reading D E) W book n m None ("/" +:+ f) sv).2 = Ok (RPage page).
Proof.
  intros HE Hb Hat Hs Hfo Hnd Hin. destruct (page_marked b f page Hin) as (pl & c & -> & -> & Hm).
  destruct (server_shows E W D book b Es d ok sv ("/" +:+ file_name c) (main_tag c)) as [k Hk]; [done|apply Hb|done|done|done|done|by right|].
  exists k. intros n m H1 H2. specialize (Hk n m H1 H2). cbv zeta in Hk. rewrite (filter_one _ _ _ Hnd Hm : tagged b (main_tag c) = [(pl, c)]) in Hk.
  assert ((if e_broken E then [] else missing (site b) (page_refs c)) = []) as Hmiss; [|by rewrite Hmiss in Hk].
  apply (refers_bad b (e_broken E) (page_refs c)). intros tag Ht.
  right. apply Hb. apply (marked_refs _ _ _ _ _ Hm). by apply page_refs_sec.
Qed.
Print Assumptions server_pages.

(** ** An example *)

Example ex_tags : map fst (marks (top_place ex_book) ex_book) = ["my-book"; "part-a"; "x"; "deep"; "d"; "b"; "last"] ∧
  NoDup (map fst (marks (top_place ex_book) ex_book)) ∧
  map (λ q, (pl_number (fst q), pl_own (fst q), main_tag (snd q))) (tagged ex_book "x") = [([1], true, "part-a")] ∧
  map (λ q, (pl_number (fst q), pl_own (fst q), main_tag (snd q))) (tagged ex_book "d") = [([1; 1], false, "deep")] ∧
  map (map fst) (map (pages_from ex_book) (tagged ex_book "x")) = [["part-a.html"]].
Proof. split_and!; [vm_compute; reflexivity|apply (bool_decide_unpack _); vm_compute; exact I|vm_compute; reflexivity..]. Qed.

(** Subsection 1.1, which is on the page of section 1. *)
Definition ex_deep : string :=
  match tagged ex_book "d" with (pl, c) :: _ => page_of (site ex_book) pl c | [] => "" end.
Example ex_section_printed : ∃ k, ∀ n m, k ≤ n → k ≤ m →
  build (reading ex_disk ex_env) ex_world (Options "/src/main.lit" "" "d" "" false "") n m [] = ([], Ok ex_deep).
Proof.
  destruct (section_prints ex_env ex_world ex_disk (Options "/src/main.lit" "" "d" "" false "") ex_book) as [k Hk]; try done; [apply ex_book_at|].
  exists k. intros n m H1 H2. exact (Hk n m [] H1 H2).
Qed.
Example ex_deep_page : ex_deep = page_html "Deep" (section_html "2" "deep" (Some "1.1") "Deep" "<pre>x = 1</pre>" (Some [])).
Proof. vm_compute. reflexivity. Qed.
Example ex_served : ∃ k, ∀ n m, k ≤ n → k ≤ m →
  (serve_request (reading ex_disk ex_env) ex_world "/src/main.lit" n m None "/my-book.html" new_server).2 = Ok (RPage (first_page ex_book)).
Proof.
  destruct ex_book_fine as [Hb _]. destruct ex_tags as (_ & Hn & _).
  apply (server_pages ex_env ex_world ex_disk "/src/main.lit" ex_book [] [] true new_server "my-book.html" (first_page ex_book)); try done.
  - apply ex_book_at.
  - constructor.
  - by intros ? ? ? ? ? ? ?%elem_of_nil.
  - left.
Qed.

(** ** What one would not expect *)

(** A build of one section ends well without writing that section: it is not a page
    of its own. *)
Theorem section_written_refuted : ∃ E W D o b pl c n m, base_env E ∧ book_fine b ∧ book_at D (o_in o) b ∧ o_out o ≠ "" ∧
  tagged b (o_tag o) = [(pl, c)] ∧ w_mkdir W = true ∧ (∀ f, w_open W f = true) ∧ ∀ fs, ∃ fs', build (reading D E) W o n m fs = (fs', Ok "") ∧ ∀ f, assoc_get f fs' = assoc_get f fs.
Proof.
  destruct ex_book_fine as [Hb _]. destruct (tagged ex_book "d") as [|[pl c] [|? ?]] eqn:Eq; [by vm_compute in Eq| |by vm_compute in Eq].
  assert (pages_from ex_book (pl, c) = []) as Hnone.
  { assert (map (pages_from ex_book) (tagged ex_book "d") = [[]]) as Hm by (vm_compute; reflexivity). rewrite Eq in Hm. simpl in Hm. by injection Hm. }
  destruct (section_files ex_env ex_world ex_disk (Options "/src/main.lit" "out" "d" "" false "") ex_book (pl, c) []) as [k Hk]; try done; [apply ex_book_at|by rewrite Hnone|].
  exists ex_env, ex_world, ex_disk, (Options "/src/main.lit" "out" "d" "" false ""), ex_book, pl, c, k, k.
  split_and!; [done|done|apply ex_book_at|done|done|done|done|]. intros fs. destruct (Hk k k fs (le_n _) (le_n _)) as (fs' & E1 & E2).
  exists fs'. split; [done|]. intros f. rewrite E2, Hnone. done.
Qed.
Print Assumptions section_written_refuted.

(** The search index of such a build is for pages that are not there. *)
Theorem index_written_refuted : ∃ E W D o b n m fs' file ms d js, base_env E ∧ book_fine b ∧ book_at D (o_in o) b ∧
  build (reading D E) W o n m [] = (fs', Ok "") ∧ assoc_get "search_index.json" fs' = Some file ∧
  json_read file = Some (JObj ms) ∧ js ∈ ms ∧ JsonSpec.reads ("b", d) js ∧ sd_location d = "b.html" ∧ assoc_get "b.html" fs' = None.
Proof.
  destruct ex_book_fine as [Hb _]. destruct (tagged ex_book "x") as [|q [|? ?]] eqn:Eq; [by vm_compute in Eq| |by vm_compute in Eq].
  assert (map fst (pages_from ex_book q) = ["part-a.html"]) as Hnone.
  { assert (map (map fst) (map (pages_from ex_book) (tagged ex_book "x")) = [["part-a.html"]]) as Hm by (vm_compute; reflexivity). rewrite Eq in Hm. cbn [map] in Hm. by injection Hm. }
  assert (base_env ex_env1) as HE by done.
  assert (Forall (λ p, w_open ex_world (fst p) = true) (pages_from ex_book q)) as Hop by (apply Forall_forall; intros ? _; reflexivity).
  destruct (section_index ex_env1 ex_world ex_disk (Options "/src/main.lit" "out" "x" "" true "") ex_book q [] HE ltac:(discriminate) Hb ex_book_at
    ltac:(discriminate) Eq eq_refl ltac:(discriminate) eq_refl eq_refl Hop eq_refl) as [k Hk].
  destruct (Hk k k [] (le_n _) (le_n _)) as (fs' & file & ds & ms & E1 & E2 & E3 & F & _ & E4).
  assert (∃ d, kept (book_documents ex_book) "b" = Some d ∧ sd_location d = "b.html") as (d & Hd & Hloc).
  { eexists. split; [vm_compute; reflexivity|reflexivity]. }
  apply E4 in Hd. apply elem_of_list_lookup in Hd as [j Hj]. destruct (Forall2_lookup_l _ _ _ _ _ F Hj) as (js & Hjs & Hr).
  exists ex_env1, ex_world, ex_disk, (Options "/src/main.lit" "out" "x" "" true ""), ex_book, k, k, fs', file, ms, d, js.
  split; [exact HE|]. split; [exact Hb|]. split; [exact ex_book_at|]. split; [exact E1|]. split; [exact (E2 "search_index.json")|]. split; [exact E3|].
  split; [by eapply elem_of_list_lookup_2|]. split; [exact Hr|]. split; [exact Hloc|].
  rewrite E2. cbn [String.eqb Ascii.eqb Bool.eqb]. rewrite put_other; [done|]. rewrite Hnone. by intros [?|?%elem_of_nil]%elem_of_cons.
Qed.
Print Assumptions index_written_refuted.
