(** C86: books on a single page. *)
From Coq Require Import Ascii String.
From stdpp Require Import base tactics relations strings list.
From Verif Require Import GoBase Ast Grammar Section StrProofs ParseSpec Peg Evaluate Written WrittenProofs WrittenMore Render WriterProofs Html TextRender Command Book BookLaid BookEval BookSections BookHtml BookBuild
  BookPlain BookPlainProofs BookSingle Props_Book Props_Files Props_Plain Props_Broken.
Local Open Scope string_scope. Local Open Scope list_scope.

(** ** Below \single-page nothing has a page of its own *)

Theorem single_below holds path l ts : lays_subs holds true path l ts → forallb one_page l = true.
Proof.
  assert ((∀ p path b t, lays holds p path b t → p = true → one_page b = true) ∧ (∀ p path l ts, lays_subs holds p path l ts → p = true → forallb one_page l = true)) as [_ H].
  { apply (lays_both holds (λ p _ b _, p = true → one_page b = true) (λ p _ l _, p = true → forallb one_page l = true)).
    - intros p single path0 b ts0 Hc _ IH ->. destruct b as [title tags split omit body subs]. simpl in *. rewrite IH by done.
      destruct split; [done| |done]. simpl in Hc. by specialize (Hc eq_refl).
    - done.
    - intros p path0 c l0 t ts0 _ IH1 _ IH2 ->. simpl. by rewrite IH1, IH2.
    - intros p path0 name c l0 t ts0 _ _ IH1 _ IH2 ->. simpl. by rewrite IH1, IH2. }
  intros HL. by eapply H.
Qed.
Print Assumptions single_below.

Lemma top_one D path b : book_top D path true b → one_page b = true.
Proof.
  intros (ts & _ & Hc & HL). apply single_below in HL. destruct b as [title tags split omit body subs]. simpl in *. rewrite HL.
  destruct split; [done| |done]. by specialize (Hc eq_refl).
Qed.

Lemma one_below S b : one_page b = true → ∀ pl, pages_below S pl b = [].
Proof.
  induction b as [title tags split omit body subs IH] using sec_ind'. simpl. intros H pl. apply andb_true_iff in H as [H1 H2].
  destruct (cut_pages split) eqn:Hs; [done|]. set (b := Sec title tags split omit body subs). clearbody b.
  generalize 1. induction IH as [|c l Hc _ IHl]; intros k; [done|]. simpl in *. apply andb_true_iff in H2 as [H2 H3]. rewrite Hc, IHl by done. done.
Qed.
Lemma one_pages b : one_page b = true → pages b = [(file_name b, first_page b)].
Proof. intros H. unfold pages. by rewrite one_below. Qed.

(** So, however many of its sections say \split-sections and however many files it is
    in, a book that says \single-page is in one file; no other is written. *)
Theorem single_files E W D o b : base_env E → book_fine b → book_top D (o_in o) true b →
  o_tag o = "" → o_path o = "" → o_text o = "" → o_out o ≠ "" → o_index o = false → w_mkdir W = true → w_open W (file_name b) = true →
  ∃ k, ∀ n m fs, k ≤ n → k ≤ m → ∃ fs', build (reading D E) W o n m fs = (fs', Ok "") ∧
    ∀ f, assoc_get f fs' = if String.eqb (file_name b) f then Some (first_page b) else assoc_get f fs.
Proof.
  intros HE Hb HD Ht Hp Hx Ho Hi Hm Hop. destruct (book_top_at _ _ _ _ HD) as (t & H1 & H2). pose proof (one_pages b (top_one _ _ _ HD)) as Hpg.
  destruct (build_files E HE W D o b t (proj1 Hb) H1 H2 Ht Hp Hx (fine_refers _ _ Hb) Ho Hm Hi) as [k Hk]; [rewrite Hpg; by constructor|].
  exists k. intros n m fs Hn Hm'. destruct (Hk n m fs Hn Hm') as (fs' & E1 & E2). exists fs'. split; [done|]. intros f. by rewrite E2, Hpg.
Qed.
Print Assumptions single_files.

(** As plain text, the same. *)
Lemma one_plain_below ext b : one_page b = true → ∀ num, plain_below ext num b = [].
Proof.
  induction b as [title tags split omit body subs IH] using sec_ind'. simpl. intros H num. apply andb_true_iff in H as [H1 H2].
  destruct (cut_pages split) eqn:Hs; [done|].
  generalize 1. induction IH as [|c l Hc _ IHl]; intros k; [done|]. simpl in *. apply andb_true_iff in H2 as [H2 H3]. rewrite Hc, IHl by done. done.
Qed.
Theorem single_text D path b ext : book_top D path true b → plain_pages ext b = [(plain_file ext b, page_plain [] b, sec_lacks b)].
Proof. intros H%top_one. unfold plain_pages. by rewrite one_plain_below. Qed.
Print Assumptions single_text.

(** ** All of it is there *)

Lemma within_refl x : within x x.
Proof. exists "", "". simpl. by rewrite sapp_nil_r. Qed.
Lemma within_trans x y z : within x y → within y z → within x z.
Proof. intros (a & b & ->) (c & d & ->). exists (c +:+ a), (b +:+ d). by rewrite !sapp_assoc. Qed.
Lemma within_app x a b c : within x b → within x (a +:+ b +:+ c).
Proof. intros (p & q & ->). exists (a +:+ p), (q +:+ c). by rewrite !sapp_assoc. Qed.

Lemma within_l x a b : within x a → within x (a +:+ b).
Proof. apply (within_app x "" a b). Qed.
Lemma within_r x a b : within x b → within x (a +:+ b).
Proof. intros H. apply (within_app x a b "") in H. by rewrite sapp_nil_r in H. Qed.
Lemma within_concat x l : x ∈ l → within x (sconcat l).
Proof.
  induction l as [|y l IH]; [by intros ?%elem_of_nil|]. intros [->|H]%elem_of_cons; simpl; [apply within_l, within_refl|apply within_r; auto].
Qed.
Lemma within_section x d n num t body cs : x ∈ cs → within x (section_html d n num t body (Some cs)).
Proof.
  intros H. unfold section_html. do 17 apply within_r. apply within_l.
  apply (within_trans _ (nls +:+ "    " +:+ x +:+ nls +:+ "  ")).
  - do 2 apply within_r. apply within_l, within_refl.
  - apply within_concat. apply elem_of_list_In, in_map_iff. exists x. split; [done|]. by apply elem_of_list_In.
Qed.
Lemma elem_of_mapi {A B} (f : nat → A → B) l k y : y ∈ mapi f k l ↔ ∃ m x, l !! m = Some x ∧ y = f (k + m) x.
Proof.
  revert k. induction l as [|x l IH]; intros k; simpl.
  - split; [by intros ?%elem_of_nil|]. intros (m & x & H & _). by rewrite lookup_nil in H.
  - rewrite elem_of_cons, IH. split.
    + intros [->|(m & z & H & ->)]; [exists 0, x; by rewrite Nat.add_0_r|]. exists (S m), z. split; [done|]. f_equal. lia.
    + intros ([|m] & z & H & ->); [injection H as ->; left; by rewrite Nat.add_0_r|]. right. exists m, z. split; [done|]. f_equal. lia.
Qed.

(** Its sections are on the page, every one. *)
Lemma one_has S b : one_page b = true → ∀ pl q, q ∈ sections pl b → within (sec_html S (fst q) (snd q)) (sec_html S pl b).
Proof.
  induction b as [title tags split omit body subs IH] using sec_ind'. intros Ho pl q Hq. simpl in Ho. apply andb_true_iff in Ho as [H1 H2].
  set (b := Sec title tags split omit body subs). simpl in Hq. fold b in Hq. apply elem_of_cons in Hq as [->|Hq]; [apply within_refl|].
  apply elem_of_list_In, in_concat in Hq as (l & Hl & Hq). apply elem_of_list_In, elem_of_mapi in Hl as (m & c & Hc & ->).
  apply elem_of_list_In in Hq. assert (c ∈ subs) as Hin by by eapply elem_of_list_lookup_2.
  rewrite Forall_forall in IH. specialize (IH c Hin). rewrite forallb_forall in H2. specialize (H2 c ltac:(by apply elem_of_list_In)).
  eapply within_trans; [by apply IH|]. unfold b at 2. simpl. fold b. destruct (cut_pages split); [done|].
  apply within_section. apply elem_of_mapi. by exists m, c.
Qed.
Theorem single_has_all D path b q : book_top D path true b → q ∈ sections (top_place b) b → within (sec_html (site b) (fst q) (snd q)) (first_page b).
Proof.
  intros H%top_one Hq. eapply within_trans; [by apply one_has|]. unfold first_page, page_of, page_html. do 17 apply within_r. apply within_l, within_refl.
Qed.
Print Assumptions single_has_all.

(** ** The book with and without it *)

Lemma one_tags b : tag_names (in_one b) = tag_names b.
Proof. by destruct b. Qed.
Lemma one_main b : main_tag (in_one b) = main_tag b.
Proof. unfold main_tag. by rewrite one_tags. Qed.
Lemma one_file b : file_name (in_one b) = file_name b.
Proof. unfold file_name. by rewrite one_main. Qed.
Lemma one_title b : title_of (in_one b) = title_of b.
Proof. by destruct b. Qed.
Lemma one_one b : one_page (in_one b) = true.
Proof.
  induction b as [title tags split omit body subs IH] using sec_ind'. simpl. destruct split; simpl; induction IH as [|c l Hc _ IHl]; simpl; try done; by rewrite Hc, IHl.
Qed.
Lemma one_fine b : sec_fine (in_one b) = sec_fine b.
Proof.
  induction b as [title tags split omit body subs IH] using sec_ind'. change (sec_fine (in_one (Sec title tags split omit body subs))) with
    (some title && forallb plain_span title && forallb span_fine title && negb (String.eqb (main_tag (in_one (Sec title tags split omit body subs))) "") &&
      forallb piece_fine body && forallb sec_fine (map in_one subs)).
  rewrite one_main. assert (forallb sec_fine (map in_one subs) = forallb sec_fine subs) as ->; [|done].
  induction IH as [|c l Hc _ IHl]; simpl; [done|]. by rewrite Hc, IHl.
Qed.
Lemma one_refs b : sec_refs (in_one b) = sec_refs b.
Proof.
  induction b as [title tags split omit body subs IH] using sec_ind'. simpl. f_equal. induction IH as [|c l Hc _ IHl]; simpl; [done|]. by rewrite Hc, IHl.
Qed.
Lemma one_fresh b : is_fresh (in_one b) = is_fresh b ∧ is_split (in_one b) = false.
Proof. by destruct b as [? ? []]. Qed.

(** The numbers of the sections and the sizes of their headers are the same. *)
Lemma one_looks b : ∀ pl pl', pl_number pl' = pl_number pl → pl_depth pl' = pl_depth pl → map looks (sections pl' (in_one b)) = map looks (sections pl b).
Proof.
  induction b as [title tags split omit body subs IH] using sec_ind'. intros pl pl' Hn Hd. set (b := Sec title tags split omit body subs).
  assert (sections pl b = (pl, b) :: concat (mapi (λ k c, sections (sub_place pl b k c) c) 1 subs)) as -> by done.
  assert (sections pl' (in_one b) = (pl', in_one b) :: concat (mapi (λ k c, sections (sub_place pl' (in_one b) k c) c) 1 (map in_one subs))) as -> by done.
  cbn [map]. f_equal.
  { unfold looks. cbn [fst snd]. by rewrite one_title, one_main, Hn, Hd. }
  assert (∀ k c, pl_number (sub_place pl' (in_one b) k (in_one c)) = pl_number (sub_place pl b k c) ∧ pl_depth (sub_place pl' (in_one b) k (in_one c)) = pl_depth (sub_place pl b k c)) as Hs.
  { intros k c. unfold sub_place. destruct (one_fresh b) as [-> ->]. rewrite Hn, Hd. unfold b. simpl. by destruct split. }
  clearbody b. generalize 1. induction IH as [|c l Hc _ IHl]; intros k; [done|]. cbn [map mapi concat]. rewrite !map_app. f_equal; [|apply IHl].
  apply Hc; apply Hs.
Qed.
Theorem single_looks b : map looks (sections (top_place (in_one b)) (in_one b)) = map looks (sections (top_place b) b).
Proof. by apply one_looks. Qed.
Print Assumptions single_looks.

(** What is referred to is the same too; it is all in one file. *)
Definition inside (file : string) (u : string) : Prop := u = file ∨ ∃ name, u = file +:+ "#" +:+ name.
Definition same_entry (file : string) (e e' : entry) : Prop :=
  en_tag e' = en_tag e ∧ en_shown e' = en_shown e ∧ inside file (en_url e').
Lemma one_entries file b : ∀ pl pl', pl_file pl' = file → Forall2 (same_entry file) (entries pl b) (entries pl' (in_one b)).
Proof.
  induction b as [title tags split omit body subs IH] using sec_ind'. intros pl pl' Hf. set (b := Sec title tags split omit body subs).
  assert (entries pl b = map (λ t, Entry t (address pl b) (spans_html [] "" title)) (tag_names b) ++
      map (λ a, Entry (fst a) (pl_file pl +:+ "#" +:+ fst a) (spans_html [] "" (snd a))) (flat_map piece_anchors body) ++
      concat (mapi (λ k c, entries (sub_place pl b k c) c) 1 subs)) as -> by done.
  assert (entries pl' (in_one b) = map (λ t, Entry t (address pl' (in_one b)) (spans_html [] "" title)) (tag_names (in_one b)) ++
      map (λ a, Entry (fst a) (pl_file pl' +:+ "#" +:+ fst a) (spans_html [] "" (snd a))) (flat_map piece_anchors body) ++
      concat (mapi (λ k c, entries (sub_place pl' (in_one b) k c) c) 1 (map in_one subs))) as -> by done.
  rewrite one_tags. apply Forall2_app; [|apply Forall2_app].
  - assert (inside file (address pl' (in_one b))) as Hi.
    { unfold address. rewrite Hf. destruct (pl_own pl'); [by left|]. right. eauto. }
    revert Hi. generalize (address pl' (in_one b)) (address pl b). clear. intros u u' Hi. induction (tag_names b); simpl; constructor; done.
  - rewrite Hf. clear. induction (flat_map piece_anchors body) as [|a l IH]; simpl; constructor; [|done]. split; [done|]. split; [done|]. right. by eexists.
  - assert (∀ k c, pl_file (sub_place pl' (in_one b) k c) = file) as Hs.
    { intros k c. unfold sub_place. destruct (one_fresh b) as [-> ->]. done. }
    clearbody b. generalize 1. induction IH as [|c l Hc _ IHl]; intros k; [constructor|]. cbn [map mapi concat]. apply Forall2_app; [|apply IHl]. apply Hc, Hs.
Qed.
Theorem single_refers b tag e : refer (site b) tag = Some e → ∃ e', refer (site (in_one b)) tag = Some e' ∧ same_entry (file_name b) e e'.
Proof.
  pose proof (one_entries (file_name b) b (top_place b) (top_place (in_one b)) (one_file b)) as F. fold (site b) (site (in_one b)) in F.
  unfold refer. assert (Forall2 (same_entry (file_name b)) (List.filter (λ e, String.eqb (en_tag e) tag) (site b)) (List.filter (λ e, String.eqb (en_tag e) tag) (site (in_one b)))) as F'.
  { induction F as [|x y l l' Hxy F IH]; simpl; [constructor|]. destruct Hxy as (H1 & H2 & H3). rewrite H1. destruct (String.eqb (en_tag x) tag); [by constructor|done]. }
  destruct F' as [|x y l l' Hxy F']; [done|]. destruct F'; [|done]. intros [= <-]. eauto.
Qed.
Print Assumptions single_refers.
Lemma one_book b : book_fine b → book_fine (in_one b).
Proof.
  intros [Hf Hr]. split; [by rewrite one_fine|]. rewrite one_refs. intros tag Ht. destruct (Hr tag Ht) as [e He]. destruct (single_refers _ _ _ He) as (e' & He' & _). eauto.
Qed.

(** ** The files with and without it *)

Lemma top_same single b ts : sec_top single (in_one b) ts = sec_top single b ts.
Proof. by destruct b as [? ? []]. Qed.
Lemma lays_in_one holds : 
  (∀ p path b t, lays holds p path b t → lays holds true path (in_one b) t) ∧
  (∀ p path l ts, lays_subs holds p path l ts → lays_subs holds true path (map in_one l) ts).
Proof.
  apply (lays_both holds (λ p path b t, lays holds true path (in_one b) t) (λ p path l ts, lays_subs holds true path (map in_one l) ts)).
  - intros p single path b ts _ _ IH. rewrite <- top_same. constructor; [by destruct (one_fresh b) as [_ ->]|]. by destruct b.
  - constructor.
  - intros. by constructor.
  - intros. simpl. by eapply lays_there.
Qed.

(** Let [D] have a book in it, and let [D'] be the same but for \single-page at the
    top. Then [D'] has in it the book with everything on one page. *)
Theorem single_added D D' path b ts : on_disk D path (sec_top false b ts) →
  lays_subs (λ p t, p ≠ path ∧ on_disk D p t) false path (subs_of b) ts →
  on_disk D' path (sec_top true b ts) → (∀ p, p ≠ path → D' p = D p) →
  book_top D' path true (in_one b).
Proof.
  intros _ HL H' Hs. exists ts. split; [by rewrite top_same|]. split; [by destruct (one_fresh b) as [_ ->]|].
  apply (proj2 (lays_in_one _)) in HL. destruct b. eapply (lays_mono (λ p t, p ≠ path ∧ on_disk D p t)); [|exact HL].
  intros p t [Hne (mt & d & Hd & R)]. exists mt, d. by rewrite Hs.
Qed.
Print Assumptions single_added.

(** Then a build that had written its pages writes one, with all of its sections. *)
Theorem single_overrules E W D D' o b ts : base_env E → book_fine b → on_disk D (o_in o) (sec_top false b ts) → (is_fresh b = true → is_split b = true) →
  lays_subs (λ p t, p ≠ o_in o ∧ on_disk D p t) false (o_in o) (subs_of b) ts →
  on_disk D' (o_in o) (sec_top true b ts) → (∀ p, p ≠ o_in o → D' p = D p) →
  o_tag o = "" → o_path o = "" → o_text o = "" → o_out o ≠ "" → o_index o = false → w_mkdir W = true → (∀ f, w_open W f = true) →
  ∃ k page, ∀ n m fs, k ≤ n → k ≤ m → ∃ fs1 fs2,
    build (reading D E) W o n m fs = (fs1, Ok "") ∧ (∀ f, assoc_get f fs1 = put f (assoc_get f fs) (pages b)) ∧
    build (reading D' E) W o n m fs = (fs2, Ok "") ∧ (∀ f, assoc_get f fs2 = if String.eqb (file_name b) f then Some page else assoc_get f fs) ∧
    Forall (λ q, ∃ pl c, looks (pl, c) = looks q ∧ pl_file pl = file_name b ∧ within (sec_html (site (in_one b)) pl c) page) (sections (top_place b) b).
Proof.
  intros HE Hb H1 Hc H2 H3 H4 Ht Hp Hx Ho Hi Hm Hop.
  pose proof (single_added D D' (o_in o) b ts H1 H2 H3 H4) as HT.
  assert (laid (on_disk D) (o_in o) b (sec_top false b ts)) as HL.
  { constructor; [done|]. eapply (lays_mono _ (on_disk D)); [|exact H2]. by intros p t [_ ?]. }
  destruct (build_files E HE W D o b _ (proj1 Hb) H1 HL Ht Hp Hx (fine_refers _ _ Hb) Ho Hm Hi) as [k1 Hk1]; [apply Forall_forall; intros; apply Hop|].
  destruct (single_files E W D' o (in_one b)) as [k2 Hk2]; try done; [by apply one_book|].
  exists (Nat.max k1 k2), (first_page (in_one b)). intros n m fs Hn Hm'.
  destruct (Hk1 n m fs) as (fs1 & E1 & E2); [lia..|]. destruct (Hk2 n m fs) as (fs2 & E3 & E4); [lia..|].
  exists fs1, fs2. split; [done|]. split; [done|]. split; [done|]. split; [intros f; by rewrite E4, one_file|].
  apply Forall_forall. intros q Hq. apply (elem_of_list_fmap_1 looks) in Hq. rewrite <- single_looks in Hq. apply elem_of_list_fmap in Hq as ([pl c] & Hl & Hq).
  exists pl, c. split; [done|]. split; [|exact (single_has_all _ _ _ (pl, c) HT Hq)]. rewrite <- one_file. revert Hq. generalize (one_one b). generalize (in_one b). clear. intros b Hone.
  assert (∀ p0, (pl, c) ∈ sections p0 b → pl_file pl = pl_file p0) as Hgo; [|by apply (Hgo (top_place b))].
  induction b as [title tags split omit body subs IH] using sec_ind'. intros p0 Hq. simpl in Hone. apply andb_true_iff in Hone as [Ho1 Ho2].
  simpl in Hq. apply elem_of_cons in Hq as [Hq|Hq]; [by injection Hq as -> _|]. apply elem_of_list_In, in_concat in Hq as (l & Hl & Hq).
  apply elem_of_list_In, elem_of_mapi in Hl as (m & d & Hd & ->). assert (d ∈ subs) as Hin by by eapply elem_of_list_lookup_2. apply elem_of_list_In in Hq.
  rewrite Forall_forall in IH. rewrite forallb_forall in Ho2. rewrite (IH d Hin (Ho2 d ltac:(by apply elem_of_list_In)) _ Hq).
  unfold sub_place. simpl. by destruct (cut_pages split).
Qed.
Print Assumptions single_overrules.

(** ** An example *)

(** A guide in two files, with pages of its own for its chapters and their sections. *)
Definition ex_linux : sec := Sec [Txt "Linux"] [] false false [Par [[Txt "See "; Ref "use" []; Txt "."]]] [].
Definition ex_setup (split : cut) : sec := Sec [Txt "Setup"] [] split false [Par [[Txt "How."]]] [ex_linux].
Definition ex_use : sec := Sec [Txt "Use"] [] false false [] [Sec [Txt "Tips"] [] false false [] []].
Definition ex_guide (split : cut) : sec := Sec [Txt "Guide"] [] split false [Par [[Txt "Hello "; Ref "linux" []]]] [ex_setup split; ex_use].
Definition ex_parts : tree := [ [[call "section" [NSeq (map NPara (sec_top false (ex_setup true) [[[call "section" [NSeq (map NPara (sec_tree ex_linux))]]]]))]]];
  [[call "include-section" [NSeq [NString "use.lit"]]]] ].
Definition ex_guides (single : bool) (p : string) : option (nat * string) :=
  if String.eqb p "guide.lit" then Some (1, show_doc (sec_top single (ex_guide true) ex_parts)) else
  if String.eqb p "use.lit" then Some (1, show_doc (sec_tree ex_use)) else None.

Example ex_guide_text : show_doc (sec_top true (ex_guide true) ex_parts) =
  "{\title{Guide}}" +:+ nls +:+ nls +:+ "{\single-page}" +:+ nls +:+ nls +:+ "{\split-sections}" +:+ nls +:+ nls +:+ "Hello {\reference{linux}}" +:+ nls +:+ nls +:+
  "{\section{" +:+ nls +:+ "{\title{Setup}}" +:+ nls +:+ nls +:+ "{\split-sections}" +:+ nls +:+ nls +:+ "How." +:+ nls +:+ nls +:+
  "{\section{" +:+ nls +:+ "{\title{Linux}}" +:+ nls +:+ nls +:+ "See {\reference{use}}." +:+ "}}}}" +:+ nls +:+ nls +:+ "{\include-section{use.lit}}".
Proof. vm_compute. reflexivity. Qed.
Example ex_guide_in_one : in_one (ex_guide true) = ex_guide Fresh.
Proof. reflexivity. Qed.
Example ex_guide_fine : book_fine (ex_guide true).
Proof.
  split; [vm_compute; reflexivity|]. intros tag Ht. assert (tag ∈ ["linux"; "use"]) as Ht' by exact Ht. clear Ht.
  repeat (apply elem_of_cons in Ht' as [->|Ht']; [eexists; vm_compute; reflexivity|]). by apply elem_of_nil in Ht'.
Qed.
Example ex_guide_laid : lays_subs (λ p t, p ≠ "guide.lit" ∧ on_disk (ex_guides false) p t) false "guide.lit" (subs_of (ex_guide true)) ex_parts.
Proof.
  apply lays_here.
  - constructor; [done|]. apply lays_here; [|constructor]. by apply laid_one.
  - apply (lays_there _ _ _ "use.lit" _ _ (sec_tree ex_use)); [|by apply laid_one|constructor].
    change (beside "guide.lit" "use.lit") with "use.lit". split; [discriminate|]. in_file 1.
Qed.
Example ex_guide_built : ∃ k page, ∀ n m, k ≤ n → k ≤ m → ∃ fs1 fs2,
  build (reading (ex_guides false) ex_env) ex_world (Options "guide.lit" "out" "" "" false "") n m [] = (fs1, Ok "") ∧
  (∀ f, f ∈ ["guide.html"; "setup.html"; "linux.html"; "use.html"] ↔ is_Some (assoc_get f fs1)) ∧
  build (reading (ex_guides true) ex_env) ex_world (Options "guide.lit" "out" "" "" false "") n m [] = (fs2, Ok "") ∧
  (∀ f, assoc_get f fs2 = if String.eqb "guide.html" f then Some page else None).
Proof.
  assert (on_disk (ex_guides false) "guide.lit" (sec_top false (ex_guide true) ex_parts)) as H1 by in_file 1.
  assert (on_disk (ex_guides true) "guide.lit" (sec_top true (ex_guide true) ex_parts)) as H2 by in_file 1.
  assert (∀ p, p ≠ "guide.lit" → ex_guides true p = ex_guides false p) as H3.
  { intros p Hp. unfold ex_guides. destruct (String.eqb_spec p "guide.lit"); [contradiction|reflexivity]. }
  assert (base_env ex_env) as HE by done.
  destruct (single_overrules ex_env ex_world (ex_guides false) (ex_guides true) (Options "guide.lit" "out" "" "" false "") (ex_guide true) ex_parts HE ex_guide_fine H1
    (λ _, eq_refl) ex_guide_laid H2 H3 eq_refl eq_refl eq_refl ltac:(discriminate) eq_refl eq_refl (λ f, eq_refl)) as (k & page & Hk).
  exists k, page. intros n m Hn Hm. destruct (Hk n m [] Hn Hm) as (fs1 & fs2 & E1 & E2 & E3 & E4 & _). exists fs1, fs2. split; [exact E1|]. split; [|split; [exact E3|exact E4]].
  intros f. rewrite E2. assert (map fst (pages (ex_guide true)) = ["guide.html"; "setup.html"; "linux.html"; "use.html"]) as <- by (vm_compute; reflexivity).
  split.
  - generalize (@assoc_get string f []). generalize (pages (ex_guide true)). clear. intros ps. induction ps as [|[g c] ps IH]; intros old; [by intros ?%elem_of_nil|].
    unfold put in *. simpl. intros [->|H]%elem_of_cons.
    + rewrite String.eqb_refl. clear. revert c. induction ps as [|[g' c'] ps IH]; intros c; [by eexists|]. simpl. destruct (String.eqb g' g); apply IH.
    + by apply IH.
  - intros H. destruct (decide (f ∈ map fst (pages (ex_guide true)))) as [|Hf]; [assumption|]. rewrite put_other in H by exact Hf. destruct H as [? H]. discriminate H.
Qed.
(** The headers are as on the pages. *)
Example ex_guide_page : first_page (in_one (ex_guide true)) =
  page_html "Guide" (section_html "1" "guide" None "Guide" "<p>Hello <a href=""guide.html#linux"">Linux</a></p>" (Some
    [section_html "1" "setup" (Some "1") "Setup" "<p>How.</p>" (Some
       [section_html "1" "linux" (Some "1.1") "Linux" "<p>See <a href=""guide.html#use"">Use</a>.</p>" (Some [])]);
     section_html "1" "use" (Some "2") "Use" "" (Some [section_html "2" "tips" (Some "2.1") "Tips" "" (Some [])])])).
Proof. vm_compute. reflexivity. Qed.

(** ** What one would not expect *)

(** baselit.lit has it that \single-page is for an additional page that joins what is
    on many. But a book that has its chapters on pages of their own and once more on
    such a page can not be built when there is a reference to one of them: with each
    on its own, and with all on one, it can. *)
Definition ex_chapter (split : cut) : sec := Sec [Txt "One"] [] split false [] [Sec [Txt "Inner"] [] false false [] []].
Definition ex_once (split : cut) : sec := Sec [Txt "Top"] [] split false [Par [[Txt "See "; Ref "one" []]]] [ex_chapter split].
Definition ex_all : sec := Sec [Txt "All"] [] Fresh false [] [ex_chapter Fresh].
Definition ex_both : sec := Sec [Txt "Top"] [] Pages false [Par [[Txt "See "; Ref "one" []]]] [ex_chapter Pages; ex_all].
Definition ex_chapter_tree : tree := sec_tree (ex_chapter Pages).
Definition ex_one_part : list (list node) := [[call "include-section" [NSeq [NString "one.lit"]]]].
Definition ex_all_part : list (list node) := [[call "section" [NSeq (map NPara (sec_top true ex_all [ex_one_part]))]]].
Definition ex_join (single : bool) (parts : tree) (p : string) : option (nat * string) :=
  if String.eqb p "top.lit" then Some (1, show_doc (sec_top single (ex_once Pages) parts)) else
  if String.eqb p "one.lit" then Some (1, show_doc ex_chapter_tree) else None.
Lemma ex_chapter_one D p : lays (on_disk D) p "one.lit" (ex_chapter (if p then Fresh else Pages)) ex_chapter_tree.
Proof.
  assert (ex_chapter_tree = sec_top false (ex_chapter (if p then Fresh else Pages)) [[[call "section" [NSeq (map NPara (sec_tree (Sec [Txt "Inner"] [] false false [] [])))]]]]) as -> by (by destruct p).
  constructor; [by destruct p|]. assert (subs_of (ex_chapter (if p then Fresh else Pages)) = [Sec [Txt "Inner"] [] false false [] []]) as -> by (by destruct p).
  apply lays_here; [|constructor]. by apply lays_one.
Qed.
Lemma ex_chapter_lays D p : on_disk D "one.lit" ex_chapter_tree → lays_subs (on_disk D) p "top.lit" [ex_chapter (if p then Fresh else Pages)] [ex_one_part].
Proof. intros H. apply (lays_there _ _ _ "one.lit" _ _ ex_chapter_tree); [exact H|exact (ex_chapter_one D p)|constructor]. Qed.
Theorem single_page_additional_refuted : ∃ E W o D1 D2 D3 n m page1 page2 defs l, base_env E ∧ e_broken E = false ∧
  book_at D1 (o_in o) (ex_once Pages) ∧ book_at D2 (o_in o) (ex_once Fresh) ∧ book_at D3 (o_in o) ex_both ∧
  build (reading D1 E) W o n m [] = ([], Ok page1) ∧ build (reading D2 E) W o n m [] = ([], Ok page2) ∧
  build (reading D3 E) W o n m [] = ([], Err (FRender (RTag (EAmbiguous "one" defs l)))) ∧ length defs = 2.
Proof.
  assert (base_env ex_env) as HE by done.
  assert (on_disk (ex_join false [ex_one_part]) "one.lit" ex_chapter_tree) as C1 by in_file 1.
  assert (on_disk (ex_join true [ex_one_part]) "one.lit" ex_chapter_tree) as C2 by in_file 1.
  assert (on_disk (ex_join false [ex_one_part; ex_all_part]) "one.lit" ex_chapter_tree) as C3 by in_file 1.
  assert (book_at (ex_join false [ex_one_part]) "top.lit" (ex_once Pages)) as A1.
  { exists (sec_top false (ex_once Pages) [ex_one_part]). split; [in_file 1|]. constructor; [done|]. exact (ex_chapter_lays _ false C1). }
  assert (book_at (ex_join true [ex_one_part]) "top.lit" (ex_once Fresh)) as A2.
  { exists (sec_top true (ex_once Fresh) [ex_one_part]). split; [in_file 1|]. constructor; [done|]. exact (ex_chapter_lays _ true C2). }
  assert (book_at (ex_join false [ex_one_part; ex_all_part]) "top.lit" ex_both) as A3.
  { exists (sec_top false ex_both [ex_one_part; ex_all_part]). split; [in_file 1|]. constructor; [done|].
    apply (lays_there _ _ _ "one.lit" _ _ ex_chapter_tree); [exact C3| |].
    - exact (ex_chapter_one _ false).
    - apply lays_here; [|constructor]. constructor; [done|]. exact (ex_chapter_lays _ true C3). }
  destruct (sound_page_print ex_env ex_world _ (Options "top.lit" "" "" "" false "") (ex_once Pages) HE eq_refl A1 eq_refl eq_refl eq_refl eq_refl) as [k1 Hk1].
  { intros tag Ht. assert (tag ∈ ["one"]) as Ht' by exact Ht. apply elem_of_list_singleton in Ht' as ->. eexists. vm_compute. reflexivity. }
  destruct (sound_page_print ex_env ex_world _ (Options "top.lit" "" "" "" false "") (ex_once Fresh) HE eq_refl A2 eq_refl eq_refl eq_refl eq_refl) as [k2 Hk2].
  { intros tag Ht. assert (tag ∈ ["one"]) as Ht' by exact Ht. apply elem_of_list_singleton in Ht' as ->. eexists. vm_compute. reflexivity. }
  destruct (broken_page_refused ex_env ex_world _ (Options "top.lit" "" "" "" false "") ex_both "one" [] HE eq_refl eq_refl A3 eq_refl eq_refl eq_refl eq_refl) as [k3 Hk3].
  { vm_compute. reflexivity. }
  set (n := Nat.max k1 (Nat.max k2 k3)). specialize (Hk1 n n [] ltac:(lia) ltac:(lia)). specialize (Hk2 n n [] ltac:(lia) ltac:(lia)).
  destruct (Hk3 n n [] ltac:(lia) ltac:(lia)) as (e & E3 & defs & l & -> & Hl).
  exists ex_env, ex_world, (Options "top.lit" "" "" "" false ""), (ex_join false [ex_one_part]), (ex_join true [ex_one_part]), (ex_join false [ex_one_part; ex_all_part]).
  exists n, n, (first_page (ex_once Pages)), (first_page (ex_once Fresh)), defs, l.
  split; [exact HE|]. split; [reflexivity|]. split; [exact A1|]. split; [exact A2|]. split; [exact A3|]. split; [exact Hk1|]. split; [exact Hk2|]. split; [exact E3|exact Hl].
Qed.
Print Assumptions single_page_additional_refuted.
