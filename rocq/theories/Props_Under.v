(** C85: a section that is loaded below a book. *)
From Coq Require Import Ascii String Sorted.
From stdpp Require Import base tactics relations strings list.
From Verif Require Import GoBase Ast Grammar Section ParseSpec Peg Evaluate Written WrittenProofs WrittenMore Render WriterProofs Html TextRender Json JsonSpec JsonProofs Command
  Book BookText BookLaid BookEval BookStore BookSections BookPlaces BookHtml BookBuild BookIndex BookPlain BookPlainProofs BookChoose BookChooseProofs BookUnder BookUnderProofs
  Props_Book Props_Files Props_Index Props_Choose.
Local Open Scope string_scope. Local Open Scope list_scope.

(** With --in a book [b] and --section-path a section [c], which may itself be in
    several files and have sections below. *)

(** ** Printing *)

(** It is shown as if it were the last section of the book: its number, its links and
    what it refers to are those it would have there. *)
Theorem path_prints E W D o b c : base_env E → sec_fine b = true → sec_fine c = true → book_under D (o_in o) b (o_path o) c →
  o_tag o = "" → o_path o ≠ "" → o_text o = "" → o_out o = "" →
  ∃ k, ∀ n m fs, k ≤ n → k ≤ m →
    match (if e_broken E then [] else missing (site (with_last b c)) (page_refs c)) with
    | [] => build (reading D E) W o n m fs = (fs, Ok (page_of (site (with_last b c)) (last_place b c) c))
    | tag :: _ => ∃ e, build (reading D E) W o n m fs = (fs, Err (FRender (RTag e))) ∧ refused (site (with_last b c)) tag e
    end.
Proof. intros HE Hf Hfc (sg & (ts & HD & Hcut & HL) & tc & HDc & HLc) Ht Hp Hx Ho. exact (under_print E HE W D b c sg ts tc o Hf HD Hcut HL Hfc HDc HLc Ht Hp Hx Ho). Qed.
Print Assumptions path_prints.

Theorem path_prints_text E W D o b c : base_env E → sec_fine b = true → sec_fine c = true → book_under D (o_in o) b (o_path o) c →
  o_tag o = "" → o_path o ≠ "" → o_text o ≠ "" → o_out o = "" →
  ∃ k, ∀ n m fs, k ≤ n → k ≤ m →
    build (reading D E) W o n m fs = (fs, match sec_lacks c with
      | [] => Ok (page_plain (pl_number (last_place b c)) c)
      | name :: _ => Err (FRender (RTemplate name))
      end).
Proof. intros HE Hf Hfc (sg & (ts & HD & Hcut & HL) & tc & HDc & HLc) Ht Hp Hx Ho. exact (under_print_text E HE W D b c sg ts tc o Hf HD Hcut HL Hfc HDc HLc Ht Hp Hx Ho). Qed.
Print Assumptions path_prints_text.

(** So it is what --section-tag shows of the book that does have it as its last
    section, wherever that is and in however many files. *)
Theorem path_is_last E W D W' D' o o' b c qs : base_env E →
  sec_fine b = true → sec_fine c = true → book_under D (o_in o) b (o_path o) c →
  o_tag o = "" → o_path o ≠ "" → o_text o = "" → o_out o = "" →
  sec_fine (with_last b c) = true → book_at D' (o_in o') (with_last b c) →
  o_tag o' ≠ "" → tagged (with_last b c) (o_tag o') = (last_place b c, c) :: qs → o_text o' = "" → o_out o' = "" →
  (∀ tag, tag ∈ page_refs c → ∃ e, refer (site (with_last b c)) tag = Some e) →
  ∃ k page, ∀ n m, k ≤ n → k ≤ m → snd (build (reading D E) W o n m []) = Ok page ∧ snd (build (reading D' E) W' o' n m []) = Ok page.
Proof.
  intros HE Hf Hfc HD Ht Hp Hx Ho Hf' HD' Ht' Hq Hx' Ho' Hr.
  destruct (path_prints E W D o b c) as [k1 H1]; try done. destruct (section_prints E W' D' o' (with_last b c)) as [k2 H2]; try done.
  exists (Nat.max k1 k2), (page_of (site (with_last b c)) (last_place b c) c). intros n m Hn Hm.
  assert ((if e_broken E then [] else missing (site (with_last b c)) (page_refs c)) = []) as Hmiss.
  { apply (refers_bad (with_last b c) (e_broken E) (page_refs c)). intros tag Hin. right. by apply Hr. }
  specialize (H1 n m [] ltac:(lia) ltac:(lia)). specialize (H2 n m [] ltac:(lia) ltac:(lia)). rewrite Hq in H2. rewrite Hmiss in H1, H2. by rewrite H1, H2.
Qed.
Print Assumptions path_is_last.

(** ** Writing *)

(** [c]'s references are to things in the book or in [c]. *)
Definition refers_there (b c : sec) : Prop := ∀ tag, tag ∈ sec_refs c → ∃ e, refer (site (with_last b c)) tag = Some e.

Lemma path_write E W D o b c : base_env E → sec_fine b = true → sec_fine c = true → book_under D (o_in o) b (o_path o) c → refers_there b c →
  o_tag o = "" → o_path o ≠ "" → o_text o = "" → o_out o ≠ "" →
  w_mkdir W = true → Forall (λ p, w_open W (fst p) = true) (pages_from (with_last b c) (last_place b c, c)) →
  ∃ k s, stored true (st_heap s) None b 0 ∧ TreeSpec.wf (st_heap s) ∧ QueryProofs.tags_owned (st_heap s) ∧ ∀ n m fs, k ≤ n → k ≤ m → ∃ fs',
    build (reading D E) W o n m fs = (if o_index o then
      match write_search_index (w_short W) (cstring (e_similar E) (e_broken E) (st_heap s) (e_jumps E)) (st_heap s) (w_open W) "html" 0 "search_index.json" fs' with
      | Ok fs => (fs, Ok "") | Err e => (fs', Err (FIndex e)) | Panic => (fs', Panic) | NoFuel => (fs', NoFuel) end else (fs', Ok "")) ∧
    ∀ f, assoc_get f fs' = put f (assoc_get f fs) (pages_from (with_last b c) (last_place b c, c)).
Proof.
  intros HE Hf Hfc (sg & (ts & HD & Hcut & HL) & tc & HDc & HLc) Hr Ht Hp Hx Ho Hm Hok.
  destruct (under_write E HE W D b c sg ts tc o Hf HD Hcut HL Hfc HDc HLc Ht Hp Hx Ho Hm Hok) as (k & s & Hw & Hto & Hs & Hk).
  exists k, s. do 3 (split; [done|]). intros n m fs Hn Hm'. destruct (Hk n m fs Hn Hm') as (fs' & H).
  assert (length (pages_from (with_last b c) (last_place b c, c)) = length (refs_from (last_place b c, c))) as Hl.
  { unfold pages_from, refs_from. cbn [fst snd]. rewrite !app_length, (below_length (with_last b c) c). by destruct (pl_own (last_place b c)). }
  rewrite upto_all in H; [|rewrite snd_zip by lia].
  - rewrite fst_zip in H by lia. by exists fs'.
  - apply Forall_forall. intros tags Htags tag Htag. right. apply Hr. unfold refs_from in Htags. cbn [fst snd] in Htags. apply elem_of_app in Htags as [Htags|Htags].
    + destruct (pl_own (last_place b c)); [|by apply elem_of_nil in Htags]. apply elem_of_list_singleton in Htags as ->. by apply page_refs_sec.
    + by eapply refs_below_sec.
Qed.

(** With --out its pages are written, and those of the sections below it; of the book
    nothing is. *)
Theorem path_files E W D o b c : base_env E → sec_fine b = true → sec_fine c = true → book_under D (o_in o) b (o_path o) c → refers_there b c →
  o_tag o = "" → o_path o ≠ "" → o_text o = "" → o_out o ≠ "" → o_index o = false →
  w_mkdir W = true → Forall (λ p, w_open W (fst p) = true) (pages_from (with_last b c) (last_place b c, c)) →
  ∃ k, ∀ n m fs, k ≤ n → k ≤ m → ∃ fs', build (reading D E) W o n m fs = (fs', Ok "") ∧
    ∀ f, assoc_get f fs' = put f (assoc_get f fs) (pages_from (with_last b c) (last_place b c, c)).
Proof.
  intros HE Hf Hfc HD Hr Ht Hp Hx Ho Hi Hm Hok. destruct (path_write E W D o b c) as (k & s & _ & _ & _ & Hk); try done.
  exists k. rewrite Hi in Hk. exact Hk.
Qed.
Print Assumptions path_files.

(** When a reference is to nothing, or to several things, the pages before it are
    there; the one it is on is left unfinished. *)
Theorem path_files_broken E W D o b c : base_env E → sec_fine b = true → sec_fine c = true → book_under D (o_in o) b (o_path o) c →
  o_tag o = "" → o_path o ≠ "" → o_text o = "" → o_out o ≠ "" → o_index o = false →
  w_mkdir W = true → Forall (λ p, w_open W (fst p) = true) (pages_from (with_last b c) (last_place b c, c)) →
  ∃ k, ∀ n m fs, k ≤ n → k ≤ m → ∃ fs',
    let '(ps, failed) := upto (e_broken E) (with_last b c) (zip (pages_from (with_last b c) (last_place b c, c)) (refs_from (last_place b c, c))) in
    match failed with
    | None => build (reading D E) W o n m fs = (fs', Ok "") ∧ ∀ f, assoc_get f fs' = put f (assoc_get f fs) ps
    | Some (name, tag) => ∃ e part, build (reading D E) W o n m fs = (fs', Err (FWrite e)) ∧ refused (site (with_last b c)) tag e ∧
        ∀ f, assoc_get f fs' = put f (assoc_get f fs) (ps ++ [(name, part)])
    end.
Proof.
  intros HE Hf Hfc (sg & (ts & HD & Hcut & HL) & tc & HDc & HLc) Ht Hp Hx Ho Hi Hm Hok.
  destruct (under_write E HE W D b c sg ts tc o Hf HD Hcut HL Hfc HDc HLc Ht Hp Hx Ho Hm Hok) as (k & s & _ & _ & _ & Hk).
  exists k. intros n m fs Hn Hm'. destruct (Hk n m fs Hn Hm') as (fs' & H). exists fs'. rewrite Hi in H.
  destruct (upto _ _ _) as [ps [[name tag]|]]; exact H.
Qed.
Print Assumptions path_files_broken.

Theorem path_files_text E W D o b c : base_env E → sec_fine b = true → sec_fine c = true → book_under D (o_in o) b (o_path o) c →
  o_tag o = "" → o_path o ≠ "" → o_text o ≠ "" → o_out o ≠ "" → o_index o = false →
  w_mkdir W = true → Forall (λ q, w_open W (fst (fst q)) = true) (plain_from (o_text o) (last_place b c, c)) →
  ∃ k, ∀ n m fs, k ≤ n → k ≤ m → ∃ fs',
    match snd (BookPlain.written (plain_from (o_text o) (last_place b c, c))) with
    | None => build (reading D E) W o n m fs = (fs', Ok "") ∧
        ∀ f, assoc_get f fs' = put f (assoc_get f fs) (fst (BookPlain.written (plain_from (o_text o) (last_place b c, c))))
    | Some name => build (reading D E) W o n m fs = (fs', Err (FWrite (EPlugin "rendering"))) ∧ ∃ part,
        ∀ f, assoc_get f fs' = put f (assoc_get f fs) (fst (BookPlain.written (plain_from (o_text o) (last_place b c, c))) ++ [(name, part)])
    end.
Proof.
  intros HE Hf Hfc (sg & (ts & HD & Hcut & HL) & tc & HDc & HLc) Ht Hp Hx Ho Hi Hm Hok.
  exact (under_write_text E HE W D b c sg ts tc o Hf HD Hcut HL Hfc HDc HLc Ht Hp Hx Ho Hm Hok Hi).
Qed.
Print Assumptions path_files_text.

(** The search index is that of the book, without the section. *)
Theorem path_index E W D o b c : base_env E → e_jumps E ≠ 0 → book_fine b → sec_fine c = true → book_under D (o_in o) b (o_path o) c → refers_there b c →
  o_tag o = "" → o_path o ≠ "" → o_text o = "" → o_out o ≠ "" → o_index o = true →
  w_mkdir W = true → Forall (λ p, w_open W (fst p) = true) (pages_from (with_last b c) (last_place b c, c)) → w_open W "search_index.json" = true →
  ∃ k, ∀ n m fs, k ≤ n → k ≤ m → ∃ fs' file ds ms, build (reading D E) W o n m fs = (fs', Ok "") ∧
    (∀ f, assoc_get f fs' = if String.eqb "search_index.json" f then Some file else put f (assoc_get f fs) (pages_from (with_last b c) (last_place b c, c))) ∧
    json_read file = Some (JObj ms) ∧ Forall2 JsonSpec.reads ds ms ∧ StronglySorted before (map fst ds) ∧
    ∀ tag d, (tag, d) ∈ ds ↔ kept (book_documents b) tag = Some d.
Proof.
  intros HE Hj Hb Hfc HD Hr Ht Hp Hx Ho Hi Hm Hok Hop. destruct (path_write E W D o b c) as (k & s & Hs & Hw & Hto & Hk); try done; [apply Hb|].
  exists k. intros n m fs Hn Hm'. destruct (Hk n m fs Hn Hm') as (fs' & E1 & E2). destruct (e_jumps E) as [|j] eqn:Ej; [done|].
  destruct (index_of_book (e_similar E) (e_broken E) (st_heap s) Hw Hto b (proj1 Hb) Hs j (fine_refers _ _ Hb)) as (idx & Hidx & N & K).
  destruct (index_reads_mended (w_short W) idx N) as (es & ms & P & S & R & F).
  exists (assoc_set "search_index.json" (json_index (w_short W) idx) fs'), (json_index (w_short W) idx), es, ms. rewrite E1, Hi. unfold write_search_index. rewrite Hidx. simpl.
  rewrite Hop. split; [done|]. split; [intros f; by rewrite assoc_get_set, E2|]. do 3 (split; [done|]).
  intros tag d. rewrite P, <- K. split; [by apply assoc_get_in|by apply assoc_get_elem].
Qed.
Print Assumptions path_index.

(** ** An example *)

(** A draft, beside the book of Props_Files.v, that refers to the book and to itself;
    it has sections with pages of their own. *)
Definition ex_draft : sec :=
  Sec [Txt "Draft"] ["draft"] true false [Par [[Txt "After "; Ref "d" []; Txt ", see "; Ref "end" []; Txt "."]]]
    [Sec [Txt "End"] [] false false [Par [[Txt "Up: "; Ref "my-book" []]]] []].
Definition ex_drafts (p : string) : option (nat * string) :=
  if String.eqb p "/tmp/draft.lit" then Some (9, show_doc (sec_tree ex_draft)) else ex_disk p.

Lemma ex_same p x : ex_disk p = Some x → ex_drafts p = Some x.
Proof. unfold ex_drafts. destruct (String.eqb_spec p "/tmp/draft.lit") as [->|]; [|done]. intros H. by vm_compute in H. Qed.
Lemma under_plain D path b path' c : book_top D path false b → book_at D path' c → book_under D path b path' c.
Proof. intros H1 H2. by exists false. Qed.
Example ex_draft_at : book_at ex_drafts "/tmp/draft.lit" ex_draft ∧ book_top ex_drafts "/src/main.lit" false ex_book.
Proof.
  split.
  - exists (sec_tree ex_draft). split; [in_file 9|by apply laid_one].
  - destruct ex_book_top as (ts & HD & Hc & HL). assert (∀ p t, on_disk ex_disk p t → on_disk ex_drafts p t) as Hd.
    { intros p t0 (mt & src & H & R). exists mt, src. split; [by apply ex_same|done]. }
    exists ts. split; [by apply Hd|]. split; [done|]. eapply (lays_mono (on_disk ex_disk)); [|exact HL]. exact Hd.
Qed.
Example ex_draft_under : book_under ex_drafts "/src/main.lit" ex_book "/tmp/draft.lit" ex_draft.
Proof. destruct ex_draft_at as [H1 H2]. exact (under_plain _ _ _ _ _ H2 H1). Qed.
Example ex_draft_fine : sec_fine ex_draft = true ∧ refers_there ex_book ex_draft.
Proof.
  split; [vm_compute; reflexivity|]. intros tag Ht. assert (tag ∈ ["d"; "end"; "my-book"]) as Ht' by exact Ht. clear Ht.
  repeat (apply elem_of_cons in Ht' as [->|Ht']; [eexists; vm_compute; reflexivity|]). by apply elem_of_nil in Ht'.
Qed.
Example ex_draft_files : map fst (pages_from (with_last ex_book ex_draft) (last_place ex_book ex_draft, ex_draft)) = ["draft.html"; "end.html"].
Proof. vm_compute. reflexivity. Qed.

Example ex_draft_printed : ∃ k, ∀ n m, k ≤ n → k ≤ m →
  build (reading ex_drafts ex_env) ex_world (Options "/src/main.lit" "" "" "/tmp/draft.lit" false "") n m [] =
    ([], Ok (page_of (site (with_last ex_book ex_draft)) (last_place ex_book ex_draft) ex_draft)).
Proof.
  pose proof ex_draft_under as HU. destruct ex_draft_fine as [F1 _]. destruct ex_book_fine as [[Hb _] _].
  destruct (path_prints ex_env ex_world ex_drafts (Options "/src/main.lit" "" "" "/tmp/draft.lit" false "") ex_book ex_draft) as [k Hk]; try done.
  exists k. intros n m Hn Hm. exact (Hk n m [] Hn Hm).
Qed.
Example ex_draft_page : page_of (site (with_last ex_book ex_draft)) (last_place ex_book ex_draft) ex_draft =
  page_html "Draft" (section_html "1" "draft" (Some "3") "Draft"
    "<p>After <a href=""part-a.html#deep"">Deep</a>, see <a href=""end.html"">End</a>.</p>" None).
Proof. vm_compute. reflexivity. Qed.

(** The whole book with the draft as its last section, in one file. *)
Definition ex_whole (p : string) : option (nat * string) :=
  if String.eqb p "all.lit" then Some (1, show_doc (sec_tree (with_last ex_book ex_draft))) else None.
Example ex_last : ∃ k page, ∀ n m, k ≤ n → k ≤ m →
  snd (build (reading ex_drafts ex_env) ex_world (Options "/src/main.lit" "" "" "/tmp/draft.lit" false "") n m []) = Ok page ∧
  snd (build (reading ex_whole ex_env) ex_world (Options "all.lit" "" "draft" "" false "") n m []) = Ok page.
Proof.
  pose proof ex_draft_under as HU. destruct ex_draft_fine as [F1 F2]. destruct ex_book_fine as [[Hb _] _].
  apply (path_is_last ex_env ex_world ex_drafts ex_world ex_whole (Options "/src/main.lit" "" "" "/tmp/draft.lit" false "") (Options "all.lit" "" "draft" "" false "") ex_book ex_draft []); try done.
  - exists (sec_tree (with_last ex_book ex_draft)). split; [in_file 1|by apply laid_one].
  - intros tag Ht. apply F2. by apply page_refs_sec.
Qed.

(** ** What one would not expect *)

(** A section that the book already has can not be shown in this way when it refers to
    something in itself, though the book can be built: it is there twice. *)
Definition ex_self : sec := Sec [Txt "P"] ["p"] false false [Par [[Txt "I am "; Ref "p" []]]] [].
Definition ex_twice : sec := Sec [Txt "Top"] [] true false [] [ex_self].
Definition ex_two (p : string) : option (nat * string) :=
  if String.eqb p "top.lit" then Some (1, show_doc (sec_top false ex_twice [[[call "include-section" [NSeq [NString "p.lit"]]]]])) else
  if String.eqb p "p.lit" then Some (2, show_doc (sec_tree ex_self)) else None.
Example ex_two_at : book_top ex_two "top.lit" false ex_twice ∧ book_at ex_two "p.lit" ex_self.
Proof.
  split; [|exists (sec_tree ex_self); split; [in_file 2|by apply laid_one]].
  exists [[[call "include-section" [NSeq [NString "p.lit"]]]]]. split; [in_file 1|]. split; [done|]. simpl.
  eapply (lays_there _ _ _ "p.lit" _ _ (sec_tree ex_self)); [|by apply laid_one|constructor].
  change (beside "top.lit" "p.lit") with "p.lit". in_file 2.
Qed.
Theorem path_twice_refuted : ∃ E W D o b c n m defs l, base_env E ∧ book_fine b ∧ c ∈ subs_of b ∧ book_at D (o_in o) b ∧ book_at D (o_path o) c ∧
  build (reading D E) W o n m [] = ([], Err (FRender (RTag (EAmbiguous "p" defs l)))) ∧ length defs = 2.
Proof.
  destruct ex_two_at as [H1 H2]. assert (base_env ex_env) as HE by done. assert (book_fine ex_twice) as Hb.
  { split; [vm_compute; reflexivity|]. intros tag Ht. assert (tag ∈ ["p"]) as Ht' by exact Ht. apply elem_of_list_singleton in Ht' as ->. eexists. vm_compute. reflexivity. }
  destruct (path_prints ex_env ex_world ex_two (Options "top.lit" "" "" "p.lit" false "") ex_twice ex_self) as [k Hk]; try done; [exact (under_plain _ _ _ _ _ H1 H2)|].
  destruct (Hk k k [] (le_n _) (le_n _)) as (e & E1 & defs & l & -> & Hl).
  exists ex_env, ex_world, ex_two, (Options "top.lit" "" "" "p.lit" false ""), ex_twice, ex_self, k, k, defs, l.
  split; [exact HE|]. split; [exact Hb|]. split; [left|]. split; [exact (book_top_at _ _ _ _ H1)|]. split; [exact H2|]. split; [exact E1|exact Hl].
Qed.
Print Assumptions path_twice_refuted.

(** Below a book whose sections do not have pages of their own nothing at all is
    written, and that is not an error. *)
Definition ex_flat : sec := Sec [Txt "Flat"] [] false false [] [].
Definition ex_note : sec := Sec [Txt "Note"] [] false false [Par [[Txt "Hello."]]] [].
Definition ex_three (p : string) : option (nat * string) :=
  if String.eqb p "flat.lit" then Some (1, show_doc (sec_tree ex_flat)) else
  if String.eqb p "note.lit" then Some (2, show_doc (sec_tree ex_note)) else None.
Theorem path_written_refuted : ∃ E W D o b c n m, base_env E ∧ book_fine b ∧ book_fine c ∧ book_at D (o_in o) b ∧ book_at D (o_path o) c ∧ o_out o ≠ "" ∧
  w_mkdir W = true ∧ (∀ f, w_open W f = true) ∧ ∀ fs, ∃ fs', build (reading D E) W o n m fs = (fs', Ok "") ∧ ∀ f, assoc_get f fs' = assoc_get f fs.
Proof.
  assert (book_top ex_three "flat.lit" false ex_flat) as H1 by (exists []; split; [in_file 1|split; [done|constructor]]).
  assert (book_at ex_three "note.lit" ex_note) as H2 by (exists (sec_tree ex_note); split; [in_file 2|by apply laid_one]).
  assert (base_env ex_env) as HE by done.
  assert (refers_there ex_flat ex_note) as Hr by by intros ? ?%elem_of_nil.
  assert (Forall (λ p, w_open ex_world (fst p) = true) (pages_from (with_last ex_flat ex_note) (last_place ex_flat ex_note, ex_note))) as Hok by constructor.
  destruct (path_files ex_env ex_world ex_three (Options "flat.lit" "out" "" "note.lit" false "") ex_flat ex_note) as [k Hk]; try done; [exact (under_plain _ _ _ _ _ H1 H2)|].
  exists ex_env, ex_world, ex_three, (Options "flat.lit" "out" "" "note.lit" false ""), ex_flat, ex_note, k, k.
  split; [exact HE|]. split; [split; [reflexivity|by intros ? ?%elem_of_nil]|]. split; [split; [reflexivity|by intros ? ?%elem_of_nil]|].
  split; [exact (book_top_at _ _ _ _ H1)|]. split; [exact H2|]. split; [discriminate|]. split; [reflexivity|]. split; [reflexivity|]. intros fs. destruct (Hk k k fs (le_n _) (le_n _)) as (fs' & E1 & E2). exists fs'. split; [exact E1|exact E2].
Qed.
Print Assumptions path_written_refuted.

(** The search index has nothing about the page that is written. *)
Lemma kept_in ds tag d : kept ds tag = Some d → (tag, d) ∈ ds.
Proof.
  unfold kept. destruct (last _) as [[t e]|] eqn:El; [|done]. intros [= ->]. apply last_Some_elem_of, elem_of_list_In, filter_In in El as [Hin He].
  cbn [fst] in He. apply String.eqb_eq in He as ->. by apply elem_of_list_In.
Qed.
Theorem path_index_refuted : ∃ E W D o b c n m fs' file ds ms page, base_env E ∧ book_fine b ∧ book_at D (o_in o) b ∧ book_at D (o_path o) c ∧
  build (reading D E) W o n m [] = (fs', Ok "") ∧ assoc_get "draft.html" fs' = Some page ∧ assoc_get "search_index.json" fs' = Some file ∧
  json_read file = Some (JObj ms) ∧ Forall2 JsonSpec.reads ds ms ∧ ∀ tag d, (tag, d) ∈ ds → sd_location d ≠ "draft.html".
Proof.
  destruct ex_draft_at as [H1 H2]. destruct ex_draft_fine as [F1 F2]. destruct ex_book_fine as [Hb _].
  assert (base_env ex_env1) as HE by done.
  assert (Forall (λ p, w_open ex_world (fst p) = true) (pages_from (with_last ex_book ex_draft) (last_place ex_book ex_draft, ex_draft))) as Hop by (apply Forall_forall; intros ? _; reflexivity).
  destruct (path_index ex_env1 ex_world ex_drafts (Options "/src/main.lit" "out" "" "/tmp/draft.lit" true "") ex_book ex_draft HE ltac:(discriminate) Hb F1 ex_draft_under F2
    eq_refl ltac:(discriminate) eq_refl ltac:(discriminate) eq_refl eq_refl Hop eq_refl) as [k Hk].
  destruct (Hk k k [] (le_n _) (le_n _)) as (fs' & file & ds & ms & E1 & E2 & E3 & F & _ & E4).
  assert (∃ page, put "draft.html" None (pages_from (with_last ex_book ex_draft) (last_place ex_book ex_draft, ex_draft)) = Some page) as [page Hpage] by (eexists; vm_compute; reflexivity).
  exists ex_env1, ex_world, ex_drafts, (Options "/src/main.lit" "out" "" "/tmp/draft.lit" true ""), ex_book, ex_draft, k, k, fs', file, ds, ms, page.
  split; [exact HE|]. split; [exact Hb|]. split; [exact (book_top_at _ _ _ _ H2)|]. split; [exact H1|]. split; [exact E1|].
  split; [rewrite E2; exact Hpage|]. split; [exact (E2 "search_index.json")|]. split; [exact E3|]. split; [exact F|].
  intros tag d Hd. apply E4, kept_in in Hd. apply (elem_of_list_fmap_1 (λ x, sd_location (snd x))) in Hd. cbn [snd] in Hd.
  assert ("draft.html" ∉ map (λ x, sd_location (snd x)) (book_documents ex_book)) as Hnot by (apply (bool_decide_unpack _); vm_compute; exact I).
  intros He. apply Hnot. rewrite <- He. exact Hd.
Qed.
Print Assumptions path_index_refuted.
