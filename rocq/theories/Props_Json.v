(** Theorems about the search index file: C59. *)
From Coq Require Import Ascii String NArith Sorted.
From stdpp Require Import base tactics strings list.
From Verif Require Import GoBase StrProofs Ast Content Section Render TreeSpec RenderSpec TreeProofs NavProofs
  QueryProofs WriterProofs Demo ParseSpec Json JsonSpec JsonProofs.
Local Open Scope string_scope.
Local Open Scope list_scope.

(** A JSON reader gets from the file exactly the entries of the index, in byte
    order of their names. *)
Theorem search_file_reads_back : ∀ short idx, NoDup (map fst idx) → Forall entry_utf8 idx → ∃ es,
  es ≡ₚ idx ∧ StronglySorted before (map fst es) ∧
  json_read (json_index short idx) = Some (JObj (map entry_json es)).
Proof. exact index_reads_back. Qed.
Print Assumptions search_file_reads_back.

(** Whatever the bytes of the texts: the file is JSON, and bytes that are not
    UTF-8 are replaced. *)
Theorem search_file_reads_mended : ∀ short idx, NoDup (map fst idx) → ∃ es ms,
  es ≡ₚ idx ∧ StronglySorted before (map fst es) ∧
  json_read (json_index short idx) = Some (JObj ms) ∧ Forall2 reads es ms.
Proof. exact index_reads_mended. Qed.
Print Assumptions search_file_reads_mended.

(** What replacing means: every text has exactly one mended form, which is UTF-8,
    and is the text itself if that was UTF-8. *)
Theorem mended_form : ∀ s, ∃ t, mended s t ∧ (∀ t', mended s t' → t' = t) ∧ valid_utf8 t ∧ (valid_utf8 s → t = s).
Proof.
  intros s. destruct (mended_total s) as [t Ht]. exists t. split_and!; [done| |by eapply mended_is_valid|].
  - intros t' Ht'. by eapply mended_unique.
  - intros V. eapply mended_unique; [done|]. by apply mended_valid.
Qed.
Print Assumptions mended_form.

(** One line, without control characters and without the characters that end a
    script element of an HTML page. *)
Theorem search_file_bytes : ∀ short idx, ∃ line, json_index short idx = line +:+ nls ∧
  sforall (λ a, (32 <=? N_of_ascii a)%N && negb (Ascii.eqb a "<") && negb (Ascii.eqb a ">") && negb (Ascii.eqb a "&")) line = true.
Proof.
  intros short idx. destruct (json_index_plain short idx) as (line & E & P). exists line. split; [done|].
  eapply sforall_impl; [|exact P]. intros a. unfold plain, Utf8.byte, existsb. intros Ha.
  apply andb_true_iff in Ha as [H1 H2]. rewrite H1.
  destruct (Ascii.eqb a "<"), (Ascii.eqb a ">"), (Ascii.eqb a "&"); done.
Qed.
Print Assumptions search_file_bytes.

(** From the sections to the file: a tag's name is a member iff some section of
    the book declares it; the member is the entry of the last section to do so. *)
Theorem search_file_written : ∀ short str h open_ok ext r l path fs fs', wf h → listing h (λ _, true) r l →
  write_search_index short str h open_ok ext r path fs = Ok fs' →
  (∀ name, name ≠ path → assoc_get name fs' = assoc_get name fs) ∧
  ∃ text ms, assoc_get path fs' = Some text ∧ json_read text = Some (JObj ms) ∧
    (∀ name t, last_named name (flat_map (own_tags h) l) t →
       ∃ d m, tag_doc str h ext t = Ok d ∧ m ∈ ms ∧ reads (name, d) m) ∧
    (∀ m, m ∈ ms → ∃ name t d, last_named name (flat_map (own_tags h) l) t ∧
       tag_doc str h ext t = Ok d ∧ reads (name, d) m).
Proof.
  intros short str h open_ok ext r l path fs fs' W L H. unfold write_search_index in H.
  destruct (search_index str h ext r) as [idx|e| |] eqn:E; try discriminate. cbn [obind] in H.
  destruct (open_ok path); [|discriminate]. injection H as <-. split.
  { intros name Hn. rewrite assoc_get_set. by destruct (String.eqb_spec path name) as [->|]. }
  destruct (search_index_spec str h ext r l idx "" W L E) as [N _].
  destruct (index_reads_mended short idx N) as (es & ms & P & S & R & F).
  exists (json_index short idx), ms. split_and!; [by rewrite assoc_get_set, String.eqb_refl|done| |].
  - intros name t Ht.
    destruct (search_index_spec str h ext r l idx name W L E) as [_ [(t' & d & Ht' & D & A)|(No & _)]].
    + assert ((name, d) ∈ es) as Hin by (rewrite P; by apply assoc_get_elem).
      apply elem_of_list_lookup in Hin as [i Hi]. destruct (Forall2_lookup_l _ _ _ _ _ F Hi) as (m & Hm & Rm).
      exists d, m. split_and!; [by rewrite (last_named_unique name _ t t' Ht Ht')|by eapply elem_of_list_lookup_2|done].
    + destruct (last_named_elem _ _ _ Ht) as [Hi Hn]. by destruct (No t Hi).
  - intros m Hm. apply elem_of_list_lookup in Hm as [i Hi].
    destruct (Forall2_lookup_r _ _ _ _ _ F Hi) as ([name d] & He & Rm).
    assert ((name, d) ∈ idx) as Hin by (rewrite <- P; by eapply elem_of_list_lookup_2).
    apply (assoc_get_in _ _ _ N) in Hin.
    destruct (search_index_spec str h ext r l idx name W L E) as [_ [(t' & d' & Ht' & D & A)|(_ & A)]]; [|congruence].
    exists name, t', d. split_and!; [done|congruence|done].
Qed.
Print Assumptions search_file_written.

(** It fails only if a tag has no entry, which is a panic (see C22), or the file
    cannot be created. *)
Theorem search_file_error : ∀ short str h open_ok ext r l path fs e, wf h → listing h (λ _, true) r l →
  (∀ t, t ∈ flat_map (own_tags h) l → ∃ d, tag_doc str h ext t = Ok d) →
  write_search_index short str h open_ok ext r path fs = Err e ↔ open_ok path = false ∧ e = EStat path.
Proof.
  intros short str h open_ok ext r l path fs e W L A. unfold write_search_index.
  apply (search_index_ok str h ext r l W L) in A as [idx ->]. cbn [obind].
  destruct (open_ok path); split; [discriminate|by intros [? _]|intros [= <-]; done|by intros [_ ->]].
Qed.
Print Assumptions search_file_error.

Example search_file_example : wf demo ∧ listing demo (λ _, true) 0 [0; 1; 2; 3; 4; 5] ∧
  NoDup (map fst [("b", SearchDoc "x.html" "T <b>" ("a" +:+ nls +:+ "é") 10 "t"); ("a", SearchDoc "" "" "" 0 "")]) ∧
  Forall entry_utf8 [("b", SearchDoc "x.html" "T <b>" ("a" +:+ nls +:+ "é") 10 "t"); ("a", SearchDoc "" "" "" 0 "")] ∧
  json_index true [("b", SearchDoc "x.html" "T <b>" ("a" +:+ nls +:+ "é") 10 "t"); ("a", SearchDoc "" "" "" 0 "")] =
    "{""a"":{""location"":"""",""title"":"""",""text"":"""",""depth"":0,""section_tag"":""""}," +:+
    """b"":{""location"":""x.html"",""title"":""T \u003cb\u003e"",""text"":""a\né"",""depth"":10,""section_tag"":""t""}}" +:+ nls ∧
  ∃ fs, write_search_index true (cstring (λ _ _, false) false demo 5) demo (λ _, true) "html" 0 "search_index.json" [] = Ok fs.
Proof.
  split; [exact demo_wf|]. split; [exact demo_listing|].
  split; [apply (bool_decide_eq_true_1 _); reflexivity|].
  assert (∀ s xs, Forall scalar xs → s = utf8 xs → valid_utf8 s) as V by (intros s xs ? ->; by exists xs).
  split.
  { repeat constructor; simpl.
    - apply (V _ [98%N]); [repeat constructor; unfold scalar; lia|reflexivity].
    - apply (V _ [120; 46; 104; 116; 109; 108]%N); [repeat constructor; unfold scalar; lia|reflexivity].
    - apply (V _ [84; 32; 60; 98; 62]%N); [repeat constructor; unfold scalar; lia|reflexivity].
    - apply (V _ [97; 10; 233]%N); [repeat constructor; unfold scalar; lia|reflexivity].
    - apply (V _ [116]%N); [repeat constructor; unfold scalar; lia|reflexivity].
    - apply (V _ [97]%N); [repeat constructor; unfold scalar; lia|reflexivity].
    - by apply (V _ []).
    - by apply (V _ []).
    - by apply (V _ []).
    - by apply (V _ []). }
  split; [reflexivity|]. eexists. vm_compute. reflexivity.
Qed.

(** Tags whose names differ only in bytes that are not UTF-8 become members of
    the same name, of which a reader of JSON keeps one. *)
Theorem search_file_names_distinct_refuted : ∃ idx ms, NoDup (map fst idx) ∧
  json_read (json_index true idx) = Some (JObj ms) ∧ ¬ NoDup (map fst ms).
Proof.
  exists [(String "200" "", SearchDoc "a" "" "" 0 ""); (String "201" "", SearchDoc "b" "" "" 0 "")].
  eexists. split; [apply (bool_decide_eq_true_1 _); reflexivity|].
  split; [vm_compute; reflexivity|]. intros N. apply NoDup_cons in N as [N _]. apply N. left.
Qed.
Print Assumptions search_file_names_distinct_refuted.
