(** C64: errors tell the place they arose at. *)
From Coq Require Import Ascii String Lia.
From stdpp Require Import base tactics relations strings list.
From Verif Require Import GoBase StrProofs Ast Content Section TreeSpec TreeProofs TagProofs QueryProofs NavProofs Render RenderSpec WriterProofs
  Peg PegTotal ParseSpec Evaluate EvalProofs EvalFrame EvalInv Collect CollectSpec CollectProofs BaseInv BaseFacts LoadProofs
  Html HtmlLoad HtmlProofs TextRender Json Sound EndSpec Paths EvalEnds LoadEnds EvalSpec EvalLoc CrashSpec EvalCrash
  Props_Load Props_Parser Props_Pages Positions Annotate AnnotateProofs Props_Annotate Report Props_Report Command Props_Command
  LocSpec EvalAt CollectAt RefAt.
Local Open Scope string_scope.
Local Open Scope list_scope.

(** ** Statements *)

(** The node is in the parse tree of the file at [f]. *)
Definition occurs_in (d : disk) (f : string) (nd : node) : Prop :=
  ∃ mt bytes top, d f = Some (mt, bytes) ∧ go_parse bytes = PVal (VNode top) ∧ inside top nd.
Definition no_file (d : disk) (f : string) : Prop := d f = None.
(** A file does not parse; the error is one of the parser's, within the file. *)
Definition unread_in (d : disk) (e : error) : Prop :=
  ∃ f mt bytes errs msg l, d f = Some (mt, bytes) ∧ go_parse bytes = PErr errs ∧ (msg, l) ∈ errs ∧
    l_off l ≤ String.length bytes ∧ e = EParse (ErrLoc f l 1).
Definition registered_in (E : env) (name : string) : Prop := is_Some (e_registry E name).

Notation load_error_in d E := (load_error (occurs_in d) (no_file d) (unread_in d) (registered_in E)).
Notation placed_error_in d E := (placed_error (occurs_in d) (no_file d) (unread_in d) (registered_in E)).
Notation ref_error_in d := (ref_error (occurs_in d)).

(** After any number of loads of the files of a disk. *)
Inductive books (d : disk) (E : env) : st → Prop :=
| books_start : books d E (St [] [])
| books_next ord n parent path s : books d E s → path ≠ "" →
    match parent with Some p => p < length (st_heap s) | None => True end →
    books d E (fst (load_in (reading d E) ord n parent path [FBase] s)).

(** ** Lemmas *)

Lemma inside_trans a b c : inside a b → inside b c → inside a c.
Proof.
  induction 1; intros Hc; [done|..].
  - eapply inside_seq; [done|auto].
  - eapply inside_para; [done|done|auto].
  - eapply inside_pre; [done|done|auto].
  - eapply inside_arg; [done|auto].
Qed.

Lemma occurs_parts d f nd : occurs_in d f nd →
  match nd with
  | NString _ => True
  | NSeq l => Forall (occurs_in d f) l
  | NPara ls | NPre ls => Forall (Forall (occurs_in d f)) ls
  | NInvoke _ args _ => Forall (occurs_in d f) args
  end.
Proof.
  intros (mt & b & top & Hd & Hp & Hi).
  assert (∀ x, inside nd x → occurs_in d f x) as K.
  { intros x Hx. exists mt, b, top. split_and!; [done..|]. by eapply inside_trans. }
  destruct nd as [t|l|ls|ls|fn args l]; [done|..].
  - apply Forall_forall. intros x Hx. apply K. eapply inside_seq; [done|constructor].
  - apply Forall_forall. intros r Hr. apply Forall_forall. intros x Hx. apply K. eapply inside_para; [done|done|constructor].
  - apply Forall_forall. intros r Hr. apply Forall_forall. intros x Hx. apply K. eapply inside_pre; [done|done|constructor].
  - apply Forall_forall. intros x Hx. apply K. eapply inside_arg; [done|constructor].
Qed.
Lemma occurs_file d E path mt nd : e_fs (reading d E) path = Some (mt, inl nd) → occurs_in d path nd.
Proof.
  simpl. destruct (d path) as [[t b]|] eqn:Hd; simpl; [|done]. intros [= -> H].
  destruct (parse_file_cases path b) as [(nd' & Hp & E')|(errs & e' & l & _ & _ & E' & _)]; rewrite E' in H; [|done].
  injection H as ->. exists mt, b, nd. split_and!; [done..|constructor].
Qed.
Lemma unread_file d E path mt e : e_fs (reading d E) path = Some (mt, inr e) → unread_in d e ∧ is_pretty e = true.
Proof.
  simpl. destruct (d path) as [[t b]|] eqn:Hd; simpl; [|done]. intros [= -> H].
  destruct (parse_file_cases path b) as [(nd' & Hp & E')|(errs & e' & l & Hp & Hin & E' & Hl)]; rewrite E' in H; [done|].
  injection H as <-. split; [|done]. by exists path, mt, b, errs, e', l.
Qed.
Lemma missing_file d E path : e_fs (reading d E) path = None → no_file d path.
Proof. simpl. unfold no_file. by destruct (d path) as [[t b]|]. Qed.

Lemma load_in_good E ord n parent path fs s : base_only E → good E False s → path ≠ "" →
  match parent with Some p => p < length (st_heap s) | None => True end →
  good E False (fst (load_in E ord n parent path fs s)) ∧ good E False (fst (evaluate_file E (eval E n) parent path fs s)).
Proof.
  intros HE HG Hne Hp. unfold load_in, mbind.
  assert (te E anything True False s (evaluate_file E (eval E n) parent path fs) (λ s i, i < length (st_heap s))) as H.
  { apply (te_file E anything True False (λ _ _, True)); try done.
    intros self f acc nd s0 Hf _ Hq. apply (te_eval E anything True False HE (λ _ _ _ _ _ _, I) (λ _ _ _, True)) with (f := f); try done.
    intros k g nd' _. by apply any_parts. }
  destruct (H s HG (pres_refl s)) as (HG1 & _).
  destruct (evaluate_file E (eval E n) parent path fs s) as [s1 [i|e| |]]; simpl in *; try done. split; [|done]. by apply run_stages_good.
Qed.

Lemma books_history d E s : books d E s → history s.
Proof. induction 1 as [|ord n parent path s _ IH _ Hp]; [constructor|]. by constructor. Qed.
Lemma books_good d E s : base_only E → books d E s → good (reading d E) False s.
Proof.
  intros HE. induction 1 as [|ord n parent path s _ IH Hne Hp]; [by split; [|split]|].
  by apply load_in_good; [apply reading_base| | |].
Qed.

Lemma books_step d E ord n parent path s : base_only E → books d E s → heap_ok (occurs_in d) (st_heap s) → path ≠ "" →
  match parent with Some p => p < length (st_heap s) | None => True end →
  heap_ok (occurs_in d) (st_heap (fst (load_in (reading d E) ord n parent path [FBase] s))) ∧
  ∀ e, snd (load_in (reading d E) ord n parent path [FBase] s) = Err e → load_error_in d E path e.
Proof.
  intros HE HB HO Hne Hp. pose proof (books_good _ _ _ HE HB) as HG. destruct (history_wf s (books_history _ _ _ HB)) as [W _].
  destruct (load_res (occurs_in d) (reading d E) (reading_base d E HE) (no_file d) (unread_in d) (registered_in E)
    (occurs_parts d) (occurs_file d E) (missing_file d E) (unread_file d E) (λ _ H, H) n parent path [FBase] s)
    as (HO1 & _ & He); try done.
  { apply elem_of_list_here. }
  { destruct parent as [p|]; [|done]. split; [done|]. split; [done|]. destruct (lookup_lt_is_Some_2 _ _ Hp) as [x Hx].
    destruct (HO _ _ Hx) as (f & Hf & _). eauto. }
  destruct (load_in_good (reading d E) ord n parent path [FBase] s (reading_base d E HE) HG Hne Hp) as [_ (HS1 & _)].
  unfold load_in, mbind in *. destruct (evaluate_file _ _ _ _ _ _) as [s1 [i|e| |]]; simpl in *; try done; [|split; [done|by intros ? [= <-]]].
  split; [by apply run_stages_ok|]. intros e. unfold run_stages.
  destruct (collect _ _ _ _ _) as [[h k]|e'| |] eqn:Hc; simpl; try done. exfalso. by apply collect_no_error in Hc.
Qed.

Lemma node_ind' (P : node → Prop) : (∀ t, P (NString t)) → (∀ l, Forall P l → P (NSeq l)) →
  (∀ ls, Forall (Forall P) ls → P (NPara ls)) → (∀ ls, Forall (Forall P) ls → P (NPre ls)) →
  (∀ fn args l, Forall P args → P (NInvoke fn args l)) → ∀ nd, P nd.
Proof.
  intros H1 H2 H3 H4 H5. fix IH 1. intros [t|l|ls|ls|fn args l].
  - apply H1.
  - apply H2. induction l as [|x l IHl]; constructor; [apply IH|exact IHl].
  - apply H3. induction ls as [|r ls IHls]; constructor; [|exact IHls]. induction r as [|x r IHr]; constructor; [apply IH|exact IHr].
  - apply H4. induction ls as [|r ls IHls]; constructor; [|exact IHls]. induction r as [|x r IHr]; constructor; [apply IH|exact IHr].
  - apply H5. induction args as [|x args IHl]; constructor; [apply IH|exact IHl].
Qed.
Lemma locs_inside nd l : l ∈ locs nd → ∃ fn args, inside nd (NInvoke fn args l).
Proof.
  induction nd as [t|l0 IH|ls IH|ls IH|fn args l0 IH] using node_ind'; cbn [locs]; intros H.
  - by apply elem_of_nil in H.
  - apply elem_of_list_In, in_flat_map in H as (x & Hx%elem_of_list_In & H%elem_of_list_In). rewrite Forall_forall in IH.
    destruct (IH _ Hx H) as (fn & args & Hi). exists fn, args. by eapply inside_seq.
  - apply elem_of_list_In, in_flat_map in H as (r & Hr%elem_of_list_In & H). apply in_flat_map in H as (x & Hx%elem_of_list_In & H%elem_of_list_In).
    rewrite Forall_forall in IH. specialize (IH _ Hr). rewrite Forall_forall in IH.
    destruct (IH _ Hx H) as (fn & args & Hi). exists fn, args. by eapply inside_para.
  - apply elem_of_list_In, in_flat_map in H as (r & Hr%elem_of_list_In & H). apply in_flat_map in H as (x & Hx%elem_of_list_In & H%elem_of_list_In).
    rewrite Forall_forall in IH. specialize (IH _ Hr). rewrite Forall_forall in IH.
    destruct (IH _ Hx H) as (fn & args & Hi). exists fn, args. by eapply inside_pre.
  - apply elem_of_cons in H as [->|H]; [exists fn, args; constructor|].
    apply elem_of_list_In, in_flat_map in H as (x & Hx%elem_of_list_In & H%elem_of_list_In). rewrite Forall_forall in IH.
    destruct (IH _ Hx H) as (fn' & args' & Hi). exists fn', args'. by eapply inside_arg.
Qed.

Lemma choose_fails E W o n s f : choose E W o n = (s, Err f) → (∃ e, f = FLoad e) ∨ ∃ name, f = FUnknownTag name.
Proof.
  unfold choose. destruct (load _ _ _ _ _ _) as [s0 [r0|e0| |]]; try done; [|intros [= _ <-]; eauto].
  destruct (negb _); [destruct (find_tag _ _ _) as [[|t ts]|]; try done; [intros [= _ <-]; eauto|by destruct (t_section t)]|].
  destruct (negb _); [|done]. destruct (load_in _ _ _ _ _ _ _) as [? []]; try done. intros [= _ <-]; eauto.
Qed.

(** ** Theorems *)

(** Loading a file, as a book or below a section of a book: what goes wrong is told
    with the place of the invocation, in the file it is in, whichever file that is.
    Only a missing file, and a wrong number of arguments in the file itself, have no
    place. *)
Theorem located_load : ∀ d E ord n parent path s s' e, base_only E → books d E s → path ≠ "" →
  match parent with Some p => p < length (st_heap s) | None => True end →
  load_in (reading d E) ord n parent path [FBase] s = (s', Err e) → load_error_in d E path e.
Proof.
  assert (∀ d E s, base_only E → books d E s → heap_ok (occurs_in d) (st_heap s)) as HO.
  { intros d E s HE. induction 1 as [|ord n parent path s HB IH Hne Hp]; [by intros i x ?|]. by apply books_step. }
  intros d E ord n parent path s s' e HE HB Hne Hp H.
  apply (books_step d E ord n parent path s HE HB (HO d E s HE HB) Hne Hp). by rewrite H.
Qed.
Print Assumptions located_load.

(** The references, targets, titles and tags of a loaded book carry places in the
    file of their section. *)
Theorem located_marks : ∀ d E s, base_only E → books d E s → heap_ok (occurs_in d) (st_heap s).
Proof.
  intros d E s HE. induction 1 as [|ord n parent path s HB IH Hne Hp]; [by intros i x ?|]. by apply books_step.
Qed.
Print Assumptions located_marks.

(** So a page whose references do not resolve is told with the place of the reference,
    and the places that define the tag. *)
Theorem located_reference : ∀ d E s similar broken force str n i e, base_only E → books d E s →
  html_page similar broken (st_heap s) force str n i = Err (RTag e) → ref_error_in d e.
Proof.
  intros d E s similar broken force str n i e HE HB H. destruct (books_good d E s HE HB) as (HS & _).
  by eapply html_page_at, H; [|by eapply located_marks].
Qed.
Print Assumptions located_reference.

(** Such a place is where the file has the backslash and name of the function. *)
Theorem located_text : ∀ d fn l, call_at (occurs_in d) fn l →
  ∃ mt bytes, d (el_file l) = Some (mt, bytes) ∧ located bytes fn (el_loc l) ∧ el_len l = String.length (String "\" fn).
Proof.
  intros d fn l (Hl & args & mt & b & top & Hd & Hp & Hi). exists mt, b. split; [done|]. split; [|done].
  by destruct (invoke_located b top fn args (el_loc l) Hp Hi).
Qed.
Print Assumptions located_text.

(** A mark is the place of an invocation of the method, or of one within its arguments. *)
Theorem located_mark : ∀ d f name l, placed (occurs_in d) f name l →
  ∃ mt bytes fn l0, d f = Some (mt, bytes) ∧ method_name fn = name ∧ located bytes fn l0 ∧
    (l = l0 ∨ ∃ fn', located bytes fn' l).
Proof.
  intros d f name l (fn & args & l0 & (mt & b & top & Hd & Hp & Hi) & Hn & Hl). exists mt, b, fn, l0.
  destruct (invoke_located b top fn args l0 Hp Hi) as [H0 _]. split_and!; try done.
  destruct Hl as [->|Hl]; [by left|right]. apply elem_of_list_In, in_flat_map in Hl as (a & Ha%elem_of_list_In & Hl%elem_of_list_In).
  destruct (locs_inside a l Hl) as (fn' & args' & Hi'). exists fn'.
  destruct (invoke_located b top fn' args' l Hp) as [? _]; [|done]. eapply inside_trans; [exact Hi|]. by eapply inside_arg.
Qed.
Print Assumptions located_mark.

(** End to end: the report of a failed load shows the line of the invocation, in the
    file it is in, with the invocation underlined. *)
Theorem located_report : ∀ T d E path e fn l, load_error_in d E path e →
  (e = EUndefined fn l ∨ ∃ e', e = EFailed fn e' l) →
  (∀ f mt bytes, d f = Some (mt, bytes) → t_open T f = inr bytes ∧ Forall (λ l, String.length l < t_size T) (ssplit nl bytes)) →
  ∃ mt pre post suffix gutter pad carets rest, d (el_file l) = Some (mt, pre +:+ String "\" fn +:+ post) ∧
    report T e = el_file l +:+ ":" +:+ dec (1 + lf_count pre) +:+ ": " +:+ what T e +:+ lf +:+ lf +:+
      gutter +:+ (since_lf pre +:+ String "\" fn +:+ suffix) +:+ lf +:+
      pad +:+ esc +:+ "[31m" +:+ carets +:+ esc +:+ "[0m" +:+ lf +:+ rest ∧
    (suffix = until_lf post ∨ suffix = drop_cr (until_lf post)) ∧
    (∃ blanks n, gutter = blanks +:+ dec (1 + lf_count pre) +:+ "| " ∧ all_of " " n blanks) ∧
    all_of " " (String.length gutter + char_count (since_lf pre)) pad ∧ all_of "^" (String.length (String "\" fn)) carets.
Proof.
  intros T d E path e fn l He Hk HT.
  assert (call_at (occurs_in d) fn l) as (Hlen & args & mt & b & top & Hd & Hp & Hi).
  { destruct He as [He|[He|[_ ->]]]; [|by destruct He; destruct Hk as [?|[? ?]]|by destruct Hk as [?|[? ?]]].
    destruct Hk as [->|[e' ->]].
    - inversion He as [? (?&?&?&?&?&?&?&?&?&?&?)| | |]; subst; done.
    - inversion He as [? (?&?&?&?&?&?&?&?&?&?&?)| | |]; subst; done. }
  destruct (HT _ _ _ Hd) as [Ho Hs].
  destruct (report_points T b top fn args (el_loc l) (el_file l) Hp Hi Ho Hs)
    as (pre & post & suffix & g & pad & ca & Hb & Hoff & Ha & Hsuf & Hg & Hpad & Hca).
  destruct (invoke_located b top fn args (el_loc l) Hp Hi) as [(pre' & post' & Hb' & _ & Hoff' & Hline & _) _].
  assert (pre' = pre) as ->.
  { assert (stake (String.length pre') b = pre') as H1 by (rewrite Hb'; by apply stake_app).
    assert (stake (String.length pre) b = pre) as H2 by (rewrite Hb; by apply stake_app). congruence. }
  destruct l as [fl ll len]. cbn [el_file el_loc el_len] in *. subst len.
  assert (∃ rest, report T e = el_file (ErrLoc fl ll (S (String.length fn))) +:+ ":" +:+ dec (l_line ll) +:+ ": " +:+ what T e +:+ lf +:+ lf +:+
    annotate_location T (ErrLoc fl ll (S (String.length fn))) +:+ rest) as (rest & Hr).
  { destruct Hk as [->|[e' ->]]; unfold report; cbn [is_pretty pretty_print what error_text]; unfold annotate; cbn [el_loc el_file];
      rewrite Hline; change (Nat.eqb (line_after pre) 0) with false; cbv iota; [exists ""; rewrite sapp_nil_r|eexists]; rewrite !sapp_assoc; reflexivity. }
  exists mt, pre, post, suffix, g, pad, ca, rest. split; [by rewrite Hb in Hd|]. split; [|by split_and!].
  rewrite Hr, Ha, Hline. cbn [el_file]. rewrite !sapp_assoc. reflexivity.
Qed.
Print Assumptions located_report.

(** Every error of a load with a place names a file of the disk, and a line of it. *)
Theorem located_somewhere : ∀ d E path e, load_error_in d E path e →
  match where_is e with
  | Some l => ∃ mt bytes, d (el_file l) = Some (mt, bytes) ∧ l_off (el_loc l) ≤ String.length bytes ∧
      1 ≤ l_line (el_loc l) ≤ 1 + lf_count bytes
  | None => (no_file d path ∧ e = EStat path) ∨ miscounted (occurs_in d) path e
  end.
Proof.
  intros d E path e He.
  assert (∀ f mt b fn l, d f = Some (mt, b) → located b fn l → ∃ mt bytes, d f = Some (mt, bytes) ∧ l_off l ≤ String.length bytes ∧
    1 ≤ l_line l ≤ 1 + lf_count bytes) as K.
  { intros f mt b fn l Hd (pre & post & Hb & _ & Ho & Hl & _). exists mt, b. split; [done|]. rewrite Ho, Hl. subst b. unfold line_after.
    rewrite lf_count_app, app_length'. split; lia. }
  destruct He as [He|[He|[Hm ->]]]; [|destruct He; right; by econstructor|by left].
  destruct He as [e (f & mt & b & errs & msg & l & Hd & Hp & Hin & Hl & ->)|fn l Hc _|fn e l Hc _|f a b _ Hb].
  - simpl. exists mt, b. split_and!; [done|done|..]; destruct (error_in_file _ _ Hp) as [_ H]; destruct (H _ _ Hin) as [_ ?]; lia.
  - simpl. destruct (located_text _ _ _ Hc) as (mt & b & Hd & Hl & _). by eapply K.
  - simpl. destruct (located_text _ _ _ Hc) as (mt & b & Hd & Hl & _). by eapply K.
  - simpl. destruct (located_mark _ _ _ _ Hb) as (mt & b' & fn & l0 & Hd & _ & Hl0 & Hl).
    destruct Hl as [->|(fn' & Hl)]; by eapply K.
Qed.
Print Assumptions located_somewhere.

(** The failures of a whole build. *)
Theorem located_build : ∀ d E W o n m fs fs' f, base_only E → o_in o ≠ "" →
  build (reading d E) W o n m fs = (fs', Err f) →
  match f with
  | FLoad e => load_error_in d E (o_in o) e ∨ (o_path o ≠ "" ∧ load_error_in d E (o_path o) e)
  | FRender (RTag e) => ref_error_in d e
  | FWrite e => ref_error_in d e ∨ e = EPlugin "rendering" ∨ ∃ name, w_open W name = false ∧ e = EStat name
  | _ => True
  end.
Proof.
  intros d E W o n m fs fs' f HE Hin.
  pose proof (books_next d E (w_order W) n None (o_in o) (St [] []) (books_start d E) Hin I) as HB0. rewrite <-load_is_in in HB0.
  assert (∀ s x, choose (reading d E) W o n = (s, x) → books d E s ∧
    ∀ e, x = Err (FLoad e) → load_error_in d E (o_in o) e ∨ (o_path o ≠ "" ∧ load_error_in d E (o_path o) e)) as HC.
  { intros s x. unfold choose. destruct (load _ _ _ _ _ _) as [s1 [r|e| |]] eqn:El; simpl in HB0;
      try (by intros [= <- <-]).
    2:{ intros [= <- <-]. split; [done|]. intros ? [= <-]. left. rewrite load_is_in in El.
        by eapply (located_load d E (w_order W) n None (o_in o)); [..|exact El]; [|constructor| |]. }
    destruct (negb (String.eqb (o_tag o) "")).
    { destruct (find_tag _ _ _) as [[|t ts]|]; try (by intros [= <- <-]). destruct (t_section t); by intros [= <- <-]. }
    destruct (String.eqb_spec (o_path o) "") as [->|Hp]; [by intros [= <- <-]|]. cbn [negb].
    assert (r < length (st_heap s1)) as Hr.
    { destruct (loaded_section_is_top _ _ _ _ _ _ _ _ history_start El) as [_ (x1 & Hx & _)]. by eapply lookup_lt_Some. }
    pose proof (books_next d E (w_order W) n (Some r) (o_path o) s1 HB0 Hp Hr) as HB1.
    destruct (load_in _ _ _ _ _ _ _) as [s2 [i|e| |]] eqn:Ei; simpl in HB1; intros [= <- <-]; (split; [done|]); try done.
    intros ? [= <-]. right. split; [done|].
    by eapply (located_load d E (w_order W) n (Some r) (o_path o)); [..|exact Ei]. }
  assert (∀ s x i e, choose (reading d E) W o n = (s, x) → page (reading d E) W o m (st_heap s) i = Err (RTag e) → ref_error_in d e) as HP.
  { intros s x i e Hc. destruct (HC _ _ Hc) as [HB _]. unfold page. destruct (String.eqb (o_text o) ""); [by eapply located_reference|].
    intros H. exfalso. by eapply text_no_tag. }
  unfold build, build_with. destruct (choose (reading d E) W o n) as [s [[r i]|e| |]] eqn:Ec; try done.
  2:{ intros [= _ <-]. destruct (choose_fails _ _ _ _ _ _ Ec) as [[e' ->]|[name ->]]; [|done]. by apply (HC _ _ eq_refl). }
  cbv zeta. destruct (String.eqb (o_out o) "").
  { destruct (page _ _ _ _ _ _) as [|e| |] eqn:Ep; try done. intros [= _ <-]. destruct e; try done. by eapply HP. }
  destruct (w_mkdir W); [|by intros [= _ <-]].
  destruct (history_valid _ _ _ _ _ _ _ Ec) as [Wh V].
  destruct (listing_exists (st_heap s) (λ _, true) i Wh V) as (l & L).
  destruct (write_section _ _ _ _ _ _) as [[fs1 [e1|]]|] eqn:Ew; try done.
  - intros [= _ <-]. assert (pages_of (st_heap s) i (List.filter (page_b (st_heap s)) l)) as Hpg by (by exists l).
    destruct (write_fail _ _ _ _ _ _ _ _ _ Wh Hpg Ew) as (l1 & j & l2 & _ & _ & _ & H & _).
    destruct H as [[H He]|H]; [right; right; eauto|]. unfold engine_with in H.
    destruct (page _ _ _ _ _ j) as [|[]| |] eqn:Ep; simpl in H; try done; try (injection H as <-; by right; left).
    injection H as <-. left. by eapply HP.
  - destruct (o_index o); [|done]. destruct (write_search_index _ _ _ _ _ _ _ _); try done. by intros [= _ <-].
Qed.
Print Assumptions located_build.

(** *** Cases *)

Definition files_of (l : list (string * string)) : disk := λ p, bytes ← assoc_get p l; Some (1, bytes).
Definition loading (l : list (string * string)) : option error :=
  match load_in (reading (files_of l) plain_env) (λ _ n, seq 0 n) 20 None "/b/a.lit" [FBase] (St [] []) with
  | (_, Err e) => Some e
  | _ => None
  end.

(** An undefined function within an argument, in an included file, on its second line. *)
Definition located_files : list (string * string) :=
  [("/b/a.lit", "\title{A}" +:+ nls +:+ nls +:+ "\include-section{sub/c.lit}" +:+ nls);
   ("/b/sub/c.lit", "\title{C}" +:+ nls +:+ nls +:+ "see \bold{\nope}" +:+ nls)].
Example located_included : loading located_files = Some (EUndefined "nope" (ErrLoc "/b/sub/c.lit" (Loc 3 11 21) 5)).
Proof. vm_compute. reflexivity. Qed.
Example located_met : load_error_in (files_of located_files) plain_env "/b/a.lit" (EUndefined "nope" (ErrLoc "/b/sub/c.lit" (Loc 3 11 21) 5)).
Proof.
  assert (∃ s, load_in (reading (files_of located_files) plain_env) (λ _ n, seq 0 n) 20 None "/b/a.lit" [FBase] (St [] []) =
    (s, Err (EUndefined "nope" (ErrLoc "/b/sub/c.lit" (Loc 3 11 21) 5)))) as [s Hs] by (eexists; vm_compute; reflexivity).
  eapply located_load; [apply plain_env_base|constructor| | |exact Hs]; done.
Qed.

(** A title set twice, a row that is no list, and an unknown plugin. *)
Example located_titles : loading [("/b/a.lit", "\title{A}" +:+ nls +:+ "\title{B}")] =
  Some (ETitleTwice (ErrLoc "/b/a.lit" (Loc 1 1 0) 6) (ErrLoc "/b/a.lit" (Loc 2 1 10) 6)).
Proof. vm_compute. reflexivity. Qed.
Example located_row : loading [("/b/a.lit", "\section{\title{A}" +:+ nls +:+ nls +:+ "\table{x}}")] =
  Some (EFailed "table" (ETableRow (CString "x")) (ErrLoc "/b/a.lit" (Loc 3 1 20) 6)).
Proof. vm_compute. reflexivity. Qed.
Example located_missing : loading [("/b/a.lit", "\include-section{x}")] =
  Some (EFailed "include-section" (EStat "/b/x") (ErrLoc "/b/a.lit" (Loc 1 1 0) 16)).
Proof. vm_compute. reflexivity. Qed.

(** A reference to no tag, found while a page is written, and one to two tags. *)
Example located_unknown : snd (built (files_of [("/b/a.lit", "\title{A}" +:+ nls +:+ nls +:+ "\section{\title{B}\reference{aab}{x}}")])
    (Options "/b/a.lit" "o" "" "" false "")) = Err (FWrite (EUnknownTag "aab" [] (ErrLoc "/b/a.lit" (Loc 3 19 29) 10))).
Proof. vm_compute. reflexivity. Qed.
Example located_ambiguous : snd (built (files_of [("/b/a.lit", "\title{A}" +:+ nls +:+ nls +:+ "\section{\title{B}\target{a}\reference{a}}")])
    (Options "/b/a.lit" "" "" "" false "")) =
  Err (FRender (RTag (EAmbiguous "a" [ErrLoc "/b/a.lit" (Loc 3 19 29) 0; ErrLoc "/b/a.lit" (Loc 1 1 0) 0] (ErrLoc "/b/a.lit" (Loc 3 29 39) 10)))).
Proof. vm_compute. reflexivity. Qed.

(** *** Findings *)

(** Calling a function with too few arguments is reported without file and line. *)
Theorem located_arity_refuted : ∃ bytes e, loading [("/b/a.lit", bytes)] = Some e ∧ where_is e = None ∧
  ∀ T, report T e = "argument count mismatch for bold: given 0, need 1" +:+ lf.
Proof. exists "Some \bold text.". eexists. split; [vm_compute; reflexivity|]. split; reflexivity. Qed.
Print Assumptions located_arity_refuted.

(** In an inline section the place told is that of the section. *)
Theorem located_section_refuted : ∃ bytes l, loading [("/b/a.lit", bytes)] = Some (EFailed "section" (EArity "bold" 0 1 false) (ErrLoc "/b/a.lit" l 8)) ∧
  located bytes "section" l.
Proof.
  exists ("\section{" +:+ nls +:+ "\title{A}" +:+ nls +:+ nls +:+ "\bold}"). eexists. split; [vm_compute; reflexivity|].
  exists "". eexists. split; [reflexivity|]. by vm_compute.
Qed.
Print Assumptions located_section_refuted.

(** A broken reference whose text is in italics is shown as the italics. *)
Theorem located_display_refuted : ∃ bytes l, snd (built (files_of [("/b/a.lit", bytes)]) (Options "/b/a.lit" "" "" "" false "")) =
    Err (FRender (RTag (EUnknownTag "x" [] (ErrLoc "/b/a.lit" l 10)))) ∧
  located bytes "italic" l.
Proof.
  exists ("\title{A}" +:+ nls +:+ nls +:+ "\reference{x}{\italic{b}}"). eexists. split; [vm_compute; reflexivity|].
  exists ("\title{A}" +:+ nls +:+ nls +:+ "\reference{x}{"). eexists. split; [reflexivity|]. by vm_compute.
Qed.
Print Assumptions located_display_refuted.
