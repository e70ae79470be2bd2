(** C69: the command: exit status, messages, plugins and templates. *)
From Coq Require Import Ascii String Lia.
From stdpp Require Import base tactics relations strings list.
From Verif Require Import GoBase StrProofs Ast Content Section TreeSpec TreeProofs TagProofs QueryProofs NavProofs Render RenderSpec WriterProofs
  Peg Evaluate EvalInv Collect CollectProofs LoadProofs Html TextRender Json Command
  Templates TemplatesProofs Tmpl TmplSrc TmplEsc TmplExec TmplSpec TmplSafeSpec Annotate Report Program
  Props_Load Props_Command Props_Templates Props_Tmpl Props_Safe Props_Report TmplQuiet.
Local Open Scope string_scope.
Local Open Scope list_scope.

(** The environment of the process that does the work: that of the program in which
    the plugins are compiled, if there are any. *)
Definition works_in (Y : system) (again : bool) (E : env) (c : command) (E' : env) : Prop :=
  ((again = true ∨ c_plugins c = []) ∧ E' = E) ∨
  (again = false ∧ c_plugins c ≠ [] ∧ y_install Y (go_source (c_plugins c)) = inr E').

(** What a build is to give, [pg] being the pages. *)
Definition delivered (E : env) (W : world) (o : options) (pg : heap → nat → rendered) (n : nat) (fs fs' : files) (out : string) : Prop :=
  ∃ s r i, chosen E W o n s r i ∧
    ((o_out o = "" ∧ fs' = fs ∧ pg (st_heap s) i = Ok out) ∨
     (o_out o ≠ "" ∧ out = "" ∧ ∃ pages, pages_of (st_heap s) i pages ∧
       (∀ j, j ∈ pages → ∃ bytes, pg (st_heap s) j = Ok bytes ∧
         ((∀ k, k ∈ pages → file_of (st_heap s) (extension o) k = file_of (st_heap s) (extension o) j → k = j) →
          ¬ (o_index o = true ∧ file_of (st_heap s) (extension o) j = "search_index.json") →
          assoc_get (file_of (st_heap s) (extension o) j) fs' = Some bytes)) ∧
       (∀ name, (∀ j, j ∈ pages → file_of (st_heap s) (extension o) j ≠ name) →
         ¬ (o_index o = true ∧ name = "search_index.json") → assoc_get name fs' = assoc_get name fs))).

(** Texts that end with a line feed, or are empty. *)
Definition ended (s : string) : Prop := ∃ line, s = line +:+ lf.
Definition lined (s : string) : Prop := s = "" ∨ ended s.
Lemma ended_lf s : ended (s +:+ lf). Proof. by eexists. Qed.
Lemma ended_r a b : ended b → ended (a +:+ b).
Proof. intros [l ->]. exists (a +:+ l). by rewrite sapp_assoc. Qed.
Lemma ended_app a b : ended a → lined b → ended (a +:+ b).
Proof. intros [l ->] [->|E]; [|by apply ended_r]. exists l. by rewrite sapp_assoc. Qed.
Lemma lined_app a b : lined a → lined b → lined (a +:+ b).
Proof. intros [->|A] B; [done|]. right. by apply ended_app. Qed.
Lemma annotate_location_lf T l : lined (annotate_location T l).
Proof.
  unfold annotate_location. destruct (Nat.eqb _ 0); [by left|]. right. destruct (t_open T _); [apply ended_lf|].
  destruct (line_in_question _ _ _); [|by exists "EOF"]. cbv zeta. do 8 apply ended_r. by exists "[0m".
Qed.
Lemma indented_lf p s : lined (indented p s).
Proof.
  unfold indented. generalize "" as line. induction s as [|c s IH]; intros line; [by left|]. cbn [indented_from].
  destruct (Ascii.eqb c nl); [|apply IH]. right. do 2 apply ended_r. apply ended_app; [by exists ""|apply IH].
Qed.

Lemma report_lf T e : ended (report T e).
Proof.
  unfold report. destruct (is_pretty e) eqn:P; [|apply ended_lf].
  assert (∀ l msg rest, lined rest → ended (annotate l msg +:+ lf +:+ lf +:+ annotate_location T l +:+ rest)) as K.
  { intros l msg rest R. do 2 apply ended_r. apply ended_app; [by exists ""|]. apply lined_app; [apply annotate_location_lf|done]. }
  assert (∀ l msg, ended (annotate l msg +:+ lf +:+ lf +:+ annotate_location T l)) as K0.
  { intros l msg. do 2 apply ended_r. apply ended_app; [by exists ""|]. apply annotate_location_lf. }
  destruct e; try done; cbn [pretty_print]; [apply K0|apply K|apply K|apply K0|apply K|apply K].
  - right. destruct similar; [by eexists|]. do 5 apply ended_r. by exists "Did you mean one of these?".
  - right. do 4 apply ended_r. by exists "Tags must be unique so I know where to link to!".
  - destruct (is_pretty e); [apply indented_lf|]. right. do 4 apply ended_r. by exists "[0m".
  - right. do 4 apply ended_r. by eexists.
Qed.

Lemma told_lf T Y t : ended (told T Y t).
Proof.
  destruct t as [|f|msg|msg|msg|msg]; cbn [told]; try apply ended_lf; try (apply ended_r; apply ended_lf).
  destruct f as [e|name| |[]|e|e]; try apply report_lf; try apply ended_lf. apply ended_r, ended_lf.
Qed.

(** What is told when, and what has been written then. *)
Definition early (t : trouble) : Prop :=
  match t with TBuild (FWrite _) | TBuild (FIndex _) => False | _ => True end.

(** The environment with the flag given on the command line. *)
Definition flagged (c : command) (E : env) : env :=
  Env (e_fs E) (e_registry E) (e_methods E) (e_similar E) (c_broken c) (e_jumps E).

(** What is said: for an error of the book where it is and what is wrong, if it is
    somewhere; for others what has failed. *)
Definition says (T : telling) (e : error) (msg : string) : Prop :=
  match where_is e with
  | Some l => ∃ rest, msg = Props_Report.place l +:+ what T e +:+ lf +:+ lf +:+ rest
  | None => msg = Report.error_text T e +:+ lf
  end.
Definition explains (T : telling) (Y : system) (t : trouble) (msg : string) : Prop :=
  match t with
  | TBuild (FLoad e) | TBuild (FRender (RTag e)) | TBuild (FWrite e) | TBuild (FIndex e) => says T e msg
  | TBuild (FRender _) => msg = t_tmpl T +:+ lf
  | TBuild (FUnknownTag name) => ∃ a, msg = a +:+ name +:+ lf
  | TBuild FMkdir => msg = y_mkdir Y +:+ lf
  | TTemplates => msg = y_templates Y +:+ lf
  | TListen x | TTemp x => msg = x +:+ lf
  | TInstall x => msg = "build failed: " +:+ x +:+ lf
  | TStart x => msg = "reexec failed: " +:+ x +:+ lf
  end.
Lemma report_says T e : says T e (report T e).
Proof. unfold says. destruct (where_is e) eqn:E; [by apply report_headline|by apply report_plain]. Qed.
Lemma told_explains T Y t : explains T Y t (told T Y t).
Proof.
  destruct t as [|f|msg|msg|msg|msg]; cbn [told explains]; try done. destruct f as [e|name| |[]|e|e]; try done; try apply report_says.
  by exists "unknown tag: ".
Qed.

(** Why: something that was tried did fail. *)
Definition caused (Y : system) (W : world) (n m : nat) (again : bool) (E : env) (c : command) (fs fs' : files) (t : trouble) : Prop :=
  match t with
  | TTemplates => engine_templates (y_glob Y) c = None
  | TBuild f => ∃ E' tmpls, works_in Y again E c E' ∧ engine_templates (y_glob Y) c = Some tmpls ∧
      let E' := flagged c E' in
      build_with E' W (template_page E' W (c_opt c) tmpls m) (c_opt c) n fs = (fs', Err f)
  | TListen _ => False
  | TTemp msg => again = false ∧ c_plugins c ≠ [] ∧ y_temp Y = Some msg
  | TInstall msg => again = false ∧ c_plugins c ≠ [] ∧ y_install Y (go_source (c_plugins c)) = inl msg
  | TStart msg => again = false ∧ c_plugins c ≠ [] ∧ y_start Y = Some msg
  end.

(** The exit status is 0 iff everything asked for has been delivered; else it is 1
    and there is a message, or the process has crashed or been killed. *)
Theorem program_status : ∀ T Y W n m again E c fs fs' st out err, c_port c = 0 →
  main T Y W n m again E (Run c) fs = (fs', Some (Exits st out err)) →
  (st = 0 ∧ err = Some "" ∧ ∃ E' tmpls text, works_in Y again E c E' ∧ out = Some text ∧
     engine_templates (y_glob Y) c = Some tmpls ∧
     let E' := flagged c E' in
     delivered E' W (c_opt c) (template_page E' W (c_opt c) tmpls m) n fs fs' text) ∨
  (st = 1 ∧ ∃ t line, err = Some (line +:+ lf) ∧ explains T Y t (line +:+ lf) ∧ (early t → fs' = fs) ∧ caused Y W n m again E c fs fs' t) ∨
  (st = 2 ∧ ∃ E' tmpls, works_in Y again E c E' ∧ engine_templates (y_glob Y) c = Some tmpls ∧
     let E' := flagged c E' in
     build_with E' W (template_page E' W (c_opt c) tmpls m) (c_opt c) n fs = (fs', Panic)) ∨
  (st = 255 ∧ again = false ∧ c_plugins c ≠ [] ∧ y_killed Y = Some fs').
Proof.
  intros T Y W n m again E c fs fs' st out err Hp H. cbn [main] in H.
  assert (∀ t, (fs = fs' → caused Y W n m again E c fs fs' t) → (fs, Some (failing T Y t)) = (fs', Some (Exits st out err)) →
    st = 1 ∧ ∃ t line, err = Some (line +:+ lf) ∧ explains T Y t (line +:+ lf) ∧ (early t → fs' = fs) ∧ caused Y W n m again E c fs fs' t) as K.
  { intros t Hc. unfold failing. intros [= <- <- _ <-]. split; [done|]. destruct (told_lf T Y t) as [line El]. pose proof (told_explains T Y t) as Ex. rewrite El in *. eauto 10. }
  assert (∀ E', works_in Y again E c E' → execute T Y W n m E' c fs = (fs', Some (Exits st out err)) →
    (st = 0 ∧ err = Some "" ∧ ∃ E' tmpls text, works_in Y again E c E' ∧ out = Some text ∧
       engine_templates (y_glob Y) c = Some tmpls ∧
       let E' := flagged c E' in
       delivered E' W (c_opt c) (template_page E' W (c_opt c) tmpls m) n fs fs' text) ∨
    (st = 1 ∧ ∃ t line, err = Some (line +:+ lf) ∧ explains T Y t (line +:+ lf) ∧ (early t → fs' = fs) ∧ caused Y W n m again E c fs fs' t) ∨
    (st = 2 ∧ ∃ E' tmpls, works_in Y again E c E' ∧ engine_templates (y_glob Y) c = Some tmpls ∧
     let E' := flagged c E' in
     build_with E' W (template_page E' W (c_opt c) tmpls m) (c_opt c) n fs = (fs', Panic))) as X.
  { intros E' HE. unfold execute. rewrite Hp. cbn [Nat.eqb negb]. unfold build_command.
    destruct (engine_templates (y_glob Y) c) as [tmpls|] eqn:Et; [|intros Q; right; left; exact (K TTemplates (λ _, Et) Q)].
    destruct (build_with _ _ _ _ _ _) as [fs1 [o|f| |]] eqn:Eb; try done.
    - intros [= <- <- <- <-]. left. split_and!; [done..|]. exists E', tmpls, o. split_and!; [done..|]. cbv zeta.
      destruct (String.eqb_spec (o_out (c_opt c)) "") as [Eo|Eo].
      + destruct (build_prints _ _ _ _ _ _ _ _ Eo Eb) as (-> & s & r & i & Hc & Hpg). exists s, r, i. split; [done|]. left. done.
      + destruct (build_writes _ _ _ _ _ _ _ _ Eo Eb) as (-> & s & r & i & pages & Hc & Hpg & H1 & H2 & _).
        exists s, r, i. split; [done|]. right. split_and!; [done..|]. exists pages. split_and!; done.
    - unfold failing. intros [= <- <- _ <-]. right. left. split; [done|]. destruct (told_lf T Y (TBuild f)) as [line El]. pose proof (told_explains T Y (TBuild f)) as Ex.
      exists (TBuild f), line. rewrite <- El. split_and!; [done|exact Ex| |].
      + intros He. pose proof (build_fails _ _ _ _ _ _ _ _ Eb) as F. by destruct f.
      + cbn [caused]. exists E', tmpls. split_and!; done.
    - intros [= <- <- _ _]. right; right. split; [done|]. exists E', tmpls. split_and!; done. }
  unfold start in H. destruct again.
  { destruct (X E (or_introl (conj (or_introl eq_refl) eq_refl)) H) as [?|[?|?]]; auto. }
  destruct (c_plugins c) as [|p ps] eqn:Ep.
  { destruct (X E (or_introl (conj (or_intror Ep) eq_refl)) H) as [?|[?|?]]; auto. }
  destruct (y_temp Y) as [msg|] eqn:Em; [right; left; apply (K (TTemp msg)); [cbn [caused]; by rewrite Ep|done]|].
  destruct (y_install Y _) as [msg|E'] eqn:Ei; [right; left; apply (K (TInstall msg)); [cbn [caused]; by rewrite Ep|done]|].
  destruct (y_start Y) as [msg|] eqn:Es; [right; left; apply (K (TStart msg)); [cbn [caused]; by rewrite Ep|done]|].
  destruct (y_killed Y) as [fs1|] eqn:Ek.
  { injection H as <- <- <- <-. right; right; right. done. }
  destruct (X E') as [?|[?|?]]; auto. right. by rewrite Ep.
Qed.
Print Assumptions program_status.

Lemma choose_err E W o n s f : choose E W o n = (s, Err f) → (∃ e, f = FLoad e) ∨ ∃ name, f = FUnknownTag name.
Proof.
  unfold choose. destruct (Collect.load _ _ _ _ _ _) as [s0 [r|e| |]]; try done; [|intros [= _ <-]; eauto].
  destruct (negb _).
  { destruct (find_tag _ _ _) as [[|t ts]|]; try done; [intros [= _ <-]; eauto|]. by destruct (t_section t). }
  destruct (negb _); [|done]. destruct (load_in _ _ _ _ _ _ _) as [s1 [i|e| |]]; try done. intros [= _ <-]; eauto.
Qed.

(** With --allow-broken-references no reference is the reason, whichever templates. *)
Theorem program_broken : ∀ T Y W n m again E c fs fs' st out err, c_port c = 0 → c_broken c = true →
  main T Y W n m again E (Run c) fs = (fs', Some (Exits st out err)) → st = 1 →
  ∃ t msg, err = Some msg ∧ explains T Y t msg ∧ caused Y W n m again E c fs fs' t ∧
    (∀ e, t ≠ TBuild (FRender (RTag e))) ∧
    (∀ e, t = TBuild (FWrite e) → e = EPlugin "rendering" ∨ ∃ name, e = EStat name ∧ w_open W name = false).
Proof.
  intros T Y W n m again E c fs fs' st out err Hp Hb H ->.
  destruct (program_status _ _ _ _ _ _ _ _ _ _ _ _ _ Hp H) as [[? _]|[(_ & t & line & -> & Hx & _ & Hc)|[[? _]|[? _]]]]; try done.
  exists t, (line +:+ lf). split_and!; [done..| |].
  - intros e ->. destruct Hc as (E' & tmpls & _ & _ & Hc). cbv zeta in Hc. unfold build_with in Hc.
    destruct (choose _ _ _ _) as [s [[r i]|f| |]] eqn:Ec; try done.
    2:{ destruct (choose_err _ _ _ _ _ _ Ec) as [(e' & ->)|(name & ->)]; done. }
    cbv zeta in Hc. destruct (String.eqb (o_out (c_opt c)) "").
    + destruct (template_page _ _ _ _ _ _ _) as [b|e'| |] eqn:Et; try done. injection Hc as _ ->. unfold template_page in Et.
      cbn [flagged e_broken] in Et. rewrite Hb in Et. by apply run_page_broken in Et.
    + destruct (w_mkdir W); [|done]. destruct (write_section _ _ _ _ _ _) as [[fs1 [e1|]]|]; try done.
      destruct (o_index _); [|done]. by destruct (write_search_index _ _ _ _ _ _ _ _).
  - intros e ->. destruct Hc as (E' & tmpls & _ & _ & Hc). cbv zeta in Hc.
    destruct (build_fails _ _ _ _ _ _ _ _ Hc) as (s & r & i & pages & l1 & j & l2 & _ & _ & _ & _ & [[Ho ->]|[Ht|(_ & _ & ->)]] & _); [eauto| |by left].
    unfold template_page in Ht. cbn [flagged e_broken] in Ht. rewrite Hb in Ht. by apply run_page_broken in Ht.
Qed.
Print Assumptions program_broken.

(** Everything else the command can be asked for. *)
Theorem program_asked : ∀ T Y W n m again E r fs,
  match r with
  | AskVersion => main T Y W n m again E r fs = (fs, Some (Exits 0 (Some (y_version Y +:+ lf)) (Some "")))
  | AskHelp => main T Y W n m again E r fs = (fs, Some (Exits 0 (Some (y_help Y)) (Some "")))
  | BadFlags msg => ∃ out, main T Y W n m again E r fs = (fs, Some (Exits 1 (Some out) (Some (msg +:+ lf))))
  | Run c => c_port c ≠ 0 → c_plugins c = [] →
      match y_listen Y with
      | None => main T Y W n m again E r fs = (fs, Some Listens)
      | Some x => main T Y W n m again E r fs = (fs, Some (Exits 1 None (Some (x +:+ lf))))
      end
  end.
Proof.
  intros T Y W n m again E [| |msg|c] fs; try done; [by eexists|]. intros Hp Hc. cbn [main]. unfold start. rewrite Hc.
  assert (execute T Y W n m E c fs = (fs, Some match y_listen Y with Some msg => failing T Y (TListen msg) | None => Listens end)) as He.
  { unfold execute. by rewrite (proj2 (Nat.eqb_neq _ _) Hp). }
  destruct again; rewrite He; by destruct (y_listen Y).
Qed.
Print Assumptions program_asked.

(** The templates are the bundled ones, or those and the ones of the directory, which
    have all been read (see C37 for what that means). *)
Theorem program_templates : ∀ glob c,
  let dir := if is_html (c_opt c) then c_html c else c_text c in
  is_dir (glob dir) →
  match engine_templates glob c with
  | Some tmpls => (dir = "" ∧ tmpls = bundled (c_opt c)) ∨
      ∃ e, history TmplExec.parse_file empty_tree (bundled (c_opt c)) (glob dir) true e ∧ tmpls = e_tmpl e
  | None => dir ≠ "" ∧ ∃ f, f ∈ glob dir ∧
      (f_stat f = None ∨ f_read f = None ∨ ∃ text, f_read f = Some text ∧ TmplExec.parse_file (f_name f) text = None)
  end.
Proof.
  intros glob c dir Hd. unfold engine_templates. fold dir. destruct (String.eqb_spec dir "") as [->|Hne]; [by left|].
  destruct (Templates.load _ _ _ _ _) as [e ok] eqn:El.
  destruct (decide (Forall (λ f, f_stat f ≠ None) (glob dir))) as [Hs|Hs].
  - destruct ok.
    + right. exists e. split; [|done]. rewrite Forall_forall in Hs. econstructor; [constructor| |done|exact El].
      split_and!; [done..|]. by intros f ?%elem_of_nil.
    + split; [done|]. unfold Templates.load in El. rewrite Forall_forall in Hs.
      destruct (check_times (glob dir) (λ _, None) false Hd Hs) as (times & r & Ec & _).
      cbn [new_engine e_times] in El. rewrite Ec in El. destruct r; [|done].
      destruct (add_files _ _ _ _) as [s ok] eqn:Ea. injection El as <- ->.
      clear -Ea. revert Ea. generalize (bundled (c_opt c)) as T. generalize (glob dir) as d. induction d as [|f d IH]; intros T Ea; [done|].
      cbn [add_files] in Ea. destruct (f_read f) as [text|] eqn:Er; [|exists f; split; [left|auto]].
      cbn [base.mbind option_bind] in Ea. unfold add_text in Ea. destruct (TmplExec.parse_file (f_name f) text) as [defs|] eqn:Ep.
      * cbn [base.mbind option_bind] in Ea. destruct (IH _ Ea) as (g & Hg & H). exists g. split; [by right|done].
      * exists f. split; [left|eauto].
  - assert (∃ f, f ∈ glob dir ∧ f_stat f = None) as (f & Hf & Hn).
    { apply not_Forall_Exists in Hs; [|intros x; apply _]. apply Exists_exists in Hs as (f & Hf & Hn). exists f. split; [done|].
      destruct (f_stat f) eqn:Es; [|done]. exfalso. apply Hn. intros Hz. congruence. }
    destruct (templates_stat TmplExec.parse_file empty_tree (bundled (c_opt c)) (glob dir) (new_engine (bundled (c_opt c))) f Hf Hn) as [Hx _].
    rewrite El in Hx. cbn [snd] in Hx. subst ok. eauto 10.
Qed.
Print Assumptions program_templates.

(** With --plugin the command does what a program does in which the plugins are
    compiled, and which is called without the option. *)
Definition without_plugins (c : command) : command :=
  Cmd (c_opt c) (c_html c) (c_text c) (c_broken c) (c_port c) [].
Theorem program_plugins : ∀ T Y W n m E E' c fs, c_plugins c ≠ [] →
  y_temp Y = None → y_install Y (go_source (c_plugins c)) = inr E' → y_start Y = None → y_killed Y = None →
  main T Y W n m false E (Run c) fs = main T Y W n m true E' (Run c) fs ∧
  main T Y W n m true E' (Run c) fs = main T Y W n m false E' (Run (without_plugins c)) fs.
Proof.
  intros T Y W n m E E' c fs Hp H1 H2 H3 H4. split.
  2:{ cbn [main]. unfold start. cbn [without_plugins c_plugins]. unfold execute, build_command, engine_templates.
    cbn [without_plugins c_opt c_html c_text c_broken c_port]. reflexivity. }
  cbn [main]. unfold start.
  destruct (c_plugins c) as [|p ps] eqn:Ep; [by destruct Hp|]. rewrite H1, H2, H3, H4. reflexivity.
Qed.
Print Assumptions program_plugins.

(** *** The bundled templates *)

Lemma write_pages_same h ok ext eng (engs : nat → Render.engine) pages fs fs' :
  (∀ i, i ∈ pages → snd (eng i) = None → ∃ k, ∀ m, k ≤ m → engs m i = eng i) →
  write_pages h ok ext eng pages fs = (fs', None) →
  ∃ k, ∀ m, k ≤ m → write_pages h ok ext (engs m) pages fs = (fs', None).
Proof.
  revert fs. induction pages as [|i pages IH]; intros fs Hs E; cbn [write_pages] in *; [by exists 0|].
  destruct (ok _); [|done]. destruct (snd (eng i)) eqn:Ei; [done|].
  destruct (Hs i) as (k1 & H1); [by left|done|]. destruct (IH _ (λ j Hj, Hs j (elem_of_list_further _ _ _ Hj)) E) as (k2 & H2).
  exists (max k1 k2). intros m Hm. rewrite (H1 m) by lia. rewrite Ei. apply H2. lia.
Qed.

Lemma build_with_same E W (pg : heap → nat → rendered) (pgs : nat → heap → nat → rendered) o n fs fs' out :
  (∀ h i bytes, pg h i = Ok bytes → ∃ k, ∀ m, k ≤ m → pgs m h i = Ok bytes) →
  build_with E W pg o n fs = (fs', Ok out) →
  ∃ k, ∀ m, k ≤ m → build_with E W (pgs m) o n fs = (fs', Ok out).
Proof.
  intros Hs. unfold build_with. destruct (choose E W o n) as [s [[r i]|e| |]] eqn:Ec; try done. cbv zeta.
  destruct (String.eqb (o_out o) "").
  { destruct (pg (st_heap s) i) as [bytes|e| |] eqn:Ep; try done. intros [= <- <-].
    destruct (Hs _ _ _ Ep) as (k & Hk). exists k. intros m Hm. by rewrite (Hk m Hm). }
  destruct (w_mkdir W); [|done].
  destruct (history_valid _ _ _ _ _ _ _ Ec) as [Wh V].
  destruct (listing_exists (st_heap s) (λ _, true) i Wh V) as (l & L).
  assert (pages_of (st_heap s) i (List.filter (page_b (st_heap s)) l)) as Hpg by (by exists l).
  rewrite (write_section_spec _ _ _ _ _ _ _ Wh Hpg).
  destruct (write_pages _ _ _ _ _ _) as [fs1 [e|]] eqn:Ew; [done|]. intros H.
  edestruct (write_pages_same (st_heap s) (w_open W) (extension o) (engine_with W (pg (st_heap s))) (λ m, engine_with W (pgs m (st_heap s)))) as (k & Hk); [|exact Ew|].
  { intros j _ Hj. unfold engine_with in Hj |- *. destruct (pg (st_heap s) j) as [bytes|[]| |] eqn:Ep; try done.
    destruct (Hs _ _ _ Ep) as (k & Hk). exists k. intros m Hm. by rewrite (Hk m Hm). }
  exists k. intros m Hm. rewrite (write_section_spec _ _ _ _ _ _ _ Wh Hpg), (Hk m Hm). exact H.
Qed.

Lemma bundled_is o : bundled o = match o_text o with "" => bundled_html | _ => bundled_text end.
Proof. unfold bundled, is_html. by destruct (o_text o). Qed.
Lemma bundled_same E W o h i :
  same_results (λ m, page E W o m h i) (λ m, template_page E W o (bundled o) m h i).
Proof.
  unfold page, template_page, bundled, is_html, extension. cbv zeta. destruct (String.eqb (o_text o) "").
  - apply bundled_html_pages, cstring_ok.
  - apply bundled_text_pages, cstring_ok.
Qed.

(** Without templates of one's own, [Command.build] is what the command does: all
    that is proved about it (C60, C61, C64, C65) holds of the command. *)
Theorem program_bundled : ∀ Y E W c n fs fs' out,
  engine_templates (y_glob Y) c = Some (bundled (c_opt c)) →
  (∃ m, build_command Y E W c n m fs = (fs', Ok out)) ↔ (∃ m, build E W (c_opt c) n m fs = (fs', Ok out)).
Proof.
  intros Y E W c n fs fs' out Ht. unfold build_command. rewrite Ht.
  assert (∀ m, (let '(fs, r) := build_with E W (template_page E W (c_opt c) (bundled (c_opt c)) m) (c_opt c) n fs in
    (fs, match r with Ok x => Ok x | Err f => Err (TBuild f) | Panic => Panic | NoFuel => NoFuel end)) = (fs', Ok out) ↔
    build_with E W (template_page E W (c_opt c) (bundled (c_opt c)) m) (c_opt c) n fs = (fs', Ok out)) as Q.
  { intros m. destruct (build_with _ _ _ _ _ _) as [fs1 [o|f| |]]; split; congruence. }
  setoid_rewrite Q. clear Q. unfold build. split; intros [m H].
  - edestruct (build_with_same E W (template_page E W (c_opt c) (bundled (c_opt c)) m) (λ m h, page E W (c_opt c) m h)) as (k & Hk); [|exact H|exists k; exact (Hk k (le_n k))].
    intros h i b Hb. destruct (proj2 (bundled_same E W (c_opt c) h i) m) as (k & Hk).
    { cbv beta. rewrite Hb. discriminate. }
    exists k. intros m' Hm. specialize (Hk m' Hm). cbv beta in Hk. rewrite Hb in Hk. destruct (page _ _ _ _ _ _); try done. by rewrite Hk.
  - edestruct (build_with_same E W (page E W (c_opt c) m) (λ m h, template_page E W (c_opt c) (bundled (c_opt c)) m h)) as (k & Hk); [|exact H|exists k; exact (Hk k (le_n k))].
    intros h i b Hb. destruct (proj1 (bundled_same E W (c_opt c) h i) m) as (k & Hk).
    { cbv beta. rewrite Hb. discriminate. }
    exists k. intros m' Hm. specialize (Hk m' Hm). cbv beta in Hk. rewrite Hb in Hk. destruct (template_page _ _ _ _ _ _ _); try done. by rewrite Hk.
Qed.
Print Assumptions program_bundled.

(** In particular when no directory is given, or there are no template files in it. *)
Theorem program_no_templates : ∀ glob c,
  (let dir := if is_html (c_opt c) then c_html c else c_text c in dir = "" ∨ glob dir = []) →
  engine_templates glob c = Some (bundled (c_opt c)).
Proof.
  intros glob c H. cbv zeta in H. unfold engine_templates. destruct H as [->|H]; [reflexivity|].
  destruct (String.eqb _ ""); [reflexivity|]. rewrite H. reflexivity.
Qed.
Print Assumptions program_no_templates.

(** With any templates that use [rawHTML] only where the bundled ones do: the pages
    written consist of the texts of the templates, escaped text and raw HTML. *)
Theorem program_made : ∀ T Y W n m E c fs fs' out err, c_port c = 0 → o_text (c_opt c) = "" →
  (∀ tmpls, engine_templates (y_glob Y) c = Some tmpls → raw_only_there tmpls) →
  main T Y W n m true E (Run c) fs = (fs', Some (Exits 0 out err)) →
  ∃ s r i tmpls, let E := flagged c E in
    chosen E W (c_opt c) n s r i ∧ engine_templates (y_glob Y) c = Some tmpls ∧
    let made := made (st_heap s) (w_force W) (cstring (e_similar E) (e_broken E) (st_heap s) (e_jumps E)) tmpls in
    ((∃ text, out = Some text ∧ made text) ∨
     ∃ pages, pages_of (st_heap s) i pages ∧
       ∀ name bytes, assoc_get name fs' = Some bytes → assoc_get name fs ≠ Some bytes →
         ¬ (o_index (c_opt c) = true ∧ name = "search_index.json") →
         (∀ j k, j ∈ pages → k ∈ pages → file_of (st_heap s) "html" k = file_of (st_heap s) "html" j → k = j) →
         made bytes).
Proof.
  intros T Y W n m E c fs fs' out err Hp Ht Hraw H.
  destruct (program_status _ _ _ _ _ _ _ _ _ _ _ _ _ Hp H) as [(_ & _ & E' & tmpls & text & HE & -> & Htm & D)|[[? _]|[[? _]|[? _]]]]; try done.
  assert (E' = E) as ->.
  { destruct HE as [[_ ->]|[? _]]; done. }
  cbv zeta in D. destruct D as (s & r & i & Hc & D). exists s, r, i, tmpls. cbv zeta. split_and!; [done..|].
  assert (∀ j bytes, template_page (flagged c E) W (c_opt c) tmpls m (st_heap s) j = Ok bytes →
    made (st_heap s) (w_force W) (cstring (e_similar (flagged c E)) (e_broken (flagged c E)) (st_heap s) (e_jumps (flagged c E))) tmpls bytes) as M.
  { intros j bytes Hj. unfold template_page, is_html in Hj. rewrite Ht in Hj. eapply pages_made; [by apply Hraw|exact Hj]. }
  destruct D as [(_ & _ & Hpg)|(_ & _ & pages & Hpg & H1 & H2)]; [left; eauto|]. right. exists pages. split; [done|].
  intros name bytes Hb Hne Hi Hu. assert (extension (c_opt c) = "html") as Hx by (unfold extension; by rewrite Ht). rewrite Hx in *.
  destruct (decide (Exists (λ j, file_of (st_heap s) "html" j = name) pages)) as [(j & Hj & <-)%Exists_exists|Hn].
  - destruct (H1 j Hj) as (b & Hpb & Hw). rewrite Hw in Hb; [|by intros; apply Hu|done]. injection Hb as ->. by eapply M.
  - exfalso. apply Hne. rewrite <- (H2 name); [done| |done]. intros j Hj Hf. apply Hn. apply Exists_exists. eauto.
Qed.
Print Assumptions program_made.

(** *** The program with the plugins *)

(** Reading the imports of a Go program: "import", possibly "_", and a string, up to
    the next quotation mark; line feeds, semicolons and blanks in between. *)
Fixpoint quoted (s : string) : option (string * string) :=
  match s with
  | "" => None
  | String c s =>
    if Ascii.eqb c """" then Some ("", s)
    else if Ascii.eqb c nl || Ascii.eqb c "\" then None
    else match quoted s with Some (a, b) => Some (String c a, b) | None => None end
  end.
Fixpoint skip_blank (s : string) : string :=
  match s with
  | String c s' => if Ascii.eqb c nl || Ascii.eqb c ";" || Ascii.eqb c " " then skip_blank s' else s
  | "" => ""
  end.
Fixpoint imports (n : nat) (s : string) : list string :=
  match n with
  | 0 => []
  | S n =>
    if has_prefix "import " s then
      match trim_prefix "_ " (trim_prefix "import " s) with
      | String c s => if Ascii.eqb c """" then match quoted s with Some (p, s) => p :: imports n (skip_blank s) | None => [] end else []
      | "" => []
      end
    else []
  end.
Definition imported (src : string) : list string := imports (String.length src) (trim_prefix ("package main" +:+ lf) src).
(** No quotation mark, line feed or backslash. *)
Definition plain_path (p : string) : Prop :=
  sforall (λ c, negb (Ascii.eqb c """" || Ascii.eqb c nl || Ascii.eqb c "\")) p = true.

Lemma quoted_plain p s : plain_path p → quoted (p +:+ String """" s) = Some (p, s).
Proof.
  unfold plain_path. induction p as [|c p IH]; [done|]. cbn [sforall]. intros [Hc Hp]%andb_true_iff.
  change (String c p +:+ ?x) with (String c (p +:+ x)). cbn [quoted].
  destruct (Ascii.eqb c """"); [done|]. destruct (Ascii.eqb c nl); [done|]. destruct (Ascii.eqb c "\"); [done|].
  by rewrite IH.
Qed.
Lemma skip_import s : skip_blank (lf +:+ "import " +:+ s) = "import " +:+ s. Proof. reflexivity. Qed.

Theorem program_imports : ∀ ps, Forall plain_path ps →
  imported (go_source ps) = "github.com/vito/booklit/booklitcmd" :: ps.
Proof.
  intros ps Hps. unfold imported, go_source.
  set (tail := "func main() {" +:+ lf +:+ String "009" "booklitcmd.Main()" +:+ lf +:+ "}" +:+ lf).
  set (line := λ p : string, "import _ """ +:+ p +:+ """" +:+ lf).
  assert (∀ n, length ps ≤ n → imports n (skip_blank (lf +:+ sconcat (map line ps) +:+ tail)) = ps) as K.
  { clear -Hps. induction Hps as [|p ps Hp _ IH]; intros n Hn; [by destruct n|].
    destruct n as [|n]; [simpl in Hn; lia|]. cbn [map sconcat]. unfold line at 1. rewrite !sapp_assoc.
    change (skip_blank (lf +:+ "import _ """ +:+ ?x)) with ("import _ """ +:+ x). cbn [imports].
    change ("import _ """ +:+ ?x) with ("import " +:+ "_ " +:+ String """" x). rewrite has_prefix_app, !trim_prefix_app.
    rewrite Ascii.eqb_refl. change ("""" +:+ ?x) with (String """" x). rewrite quoted_plain by done.
    f_equal. apply IH. simpl in Hn. lia. }
  rewrite <- (sapp_assoc "package main"), trim_prefix_app.
  destruct (String.length _) as [|n] eqn:En; [done|]. cbn [imports].
  change ("import ""github.com/vito/booklit/booklitcmd""" +:+ ?x) with
    ("import " +:+ String """" ("github.com/vito/booklit/booklitcmd" +:+ String """" x)).
  rewrite has_prefix_app, trim_prefix_app. unfold trim_prefix at 1. cbn [has_prefix]. rewrite (proj2 (Ascii.eqb_neq "_" """") ltac:(discriminate)).
  cbn [andb]. rewrite Ascii.eqb_refl, quoted_plain by reflexivity. f_equal. apply K.
  assert (length ps ≤ String.length (sconcat (map line ps))) as Hl.
  { clear. induction ps as [|p ps IH]; [simpl; lia|]. cbn [map sconcat length]. rewrite slength_app. unfold line at 1.
    rewrite slength_app. simpl. lia. }
  rewrite !slength_app in En. simpl String.length in En. lia.
Qed.
Print Assumptions program_imports.

(** Other paths can import what was not asked for. *)
Theorem program_imports_refuted : ∃ p, imported (go_source [p]) ≠ ["github.com/vito/booklit/booklitcmd"; p] ∧
  imported (go_source [p]) = ["github.com/vito/booklit/booklitcmd"; "a"; "b"].
Proof. exists "a""; import _ ""b". split; [|reflexivity]. vm_compute. discriminate. Qed.
Print Assumptions program_imports_refuted.

(** *** Runs *)

Definition book : disk := λ p,
  if String.eqb p "/b/a.lit" then Some (1, "\title{A}" +:+ lf +:+ lf +:+ "Say \italic{it}." +:+ lf)
  else if String.eqb p "/b/bad.lit" then Some (1, "\title{B}" +:+ lf +:+ lf +:+ "See \reference{nope}." +:+ lf)
  else None.
Definition ex_world : world := World (λ _ n, seq 0 n) (λ _, None) (λ _, "") true (λ _, true) false.
Definition ex_telling : telling :=
  Telling (λ p, match book p with Some (_, b) => inr b | None => inl "open" end) 4096 (λ p, "stat " +:+ p) (λ _, "") (λ _, "") "".
Definition ex_glob (d : string) : list (file string) :=
  if String.eqb d "t" then [File "italic.tmpl" (Some 1%Z) (Some ("<i>{{.Content | render}}</i>" +:+ lf))]
  else if String.eqb d "u" then [File "italic.tmpl" (Some 1%Z) (Some "{{if}}")] else [].
Definition ex_system : system :=
  System ex_glob "1" "help" "template" "mkdir" None None (λ _, inr (reading book plain_env)) None None.
Definition ex_command (path dir : string) (plugins : list string) : command :=
  Cmd (Options path "out" "" "" false "") dir "" false 0 plugins.
Definition ex_run (c : command) : files * option process :=
  main ex_telling ex_system ex_world 20 20 false (reading book plain_env) (Run c) [].

Example ex_program :
  (match ex_run (ex_command "/b/a.lit" "" []) with
   | ([(name, bytes)], Some (Exits 0 (Some "") (Some ""))) => String.eqb name "a.html" && contains_str "Say <em>it</em>." bytes
   | _ => false end) = true ∧
  (match ex_run (ex_command "/b/a.lit" "t" ["p"]) with
   | ([(name, bytes)], Some (Exits 0 (Some "") (Some ""))) => String.eqb name "a.html" && contains_str "Say <i>it</i>." bytes
   | _ => false end) = true ∧
  ex_run (ex_command "/b/a.lit" "u" []) = ([], Some (Exits 1 None (Some ("template" +:+ lf)))) ∧
  ex_run (ex_command "/b/none.lit" "" []) = ([], Some (Exits 1 None (Some ("stat /b/none.lit" +:+ lf)))) ∧
  snd (ex_run (ex_command "/b/bad.lit" "" [])) = Some (Exits 1 None (Some (
    "/b/bad.lit:3: unknown tag 'nope'" +:+ lf +:+ lf +:+
    "   3| See \reference{nope}." +:+ lf +:+
    "          " +:+ esc +:+ "[31m^^^^^^^^^^" +:+ esc +:+ "[0m" +:+ lf +:+
    "I couldn't find any similar tags. :(" +:+ lf))).
Proof. split_and!; vm_compute; reflexivity. Qed.

(** The book with a reference to nothing, with the flag; and templates that do not
    parse. *)
Definition ex_allowed (dir : string) : command :=
  Cmd (Options "/b/bad.lit" "" "" "" false "") dir "" true 0 [].
Example ex_broken :
  (match ex_run (ex_allowed "") with
   | ([], Some (Exits 0 (Some bytes) (Some ""))) => contains_str "{broken reference: nope}" bytes
   | _ => false end) = true ∧
  ex_run (ex_allowed "u") = ([], Some (Exits 1 None (Some ("template" +:+ lf)))).
Proof. split; vm_compute; reflexivity. Qed.
