(** C70: the server shows what is on disk now, as a build would write it. *)
From Coq Require Import Ascii String Lia.
From stdpp Require Import base tactics relations strings list.
From Verif Require Import GoBase StrProofs Ast Content Section TreeSpec TreeProofs TagProofs QueryProofs NavProofs Render RenderSpec WriterProofs
  Peg Evaluate EvalInv BaseInv BaseFacts Collect CollectProofs LoadProofs Html TextRender Json Command
  Templates TemplatesProofs Tmpl TmplSrc TmplEsc TmplExec TmplSpec Annotate Report Program Server CacheFree Serve
  Props_Load Props_Command Props_Templates Props_Server Props_Program.
Local Open Scope string_scope.
Local Open Scope list_scope.

(** ** Histories *)

(** A file whose content has changed since any earlier request has a later time. *)
Definition follows (Es : list env) (E : env) : Prop :=
  ∀ E0 p t x t' x', E0 ∈ Es → e_fs E0 p = Some (t, x) → e_fs E p = Some (t', x') → t' ≤ t → x' = x.

Notation thistory := (history TmplExec.parse_file empty_tree bundled_html).

(** Whether a request gets as far as the templates. *)
Definition found (E : env) (W : world) (book : string) (n : nat) (path : string) (sv : server) : bool :=
  match (load_requested E W book n path (sv_cache sv)).2 with Ok (Some _) => true | _ => false end.
Definition tmpl_ok (r : outcome unit reply) : bool := match r with Ok RTmplFailed => false | _ => true end.

(** Servers as they are after some requests. [Es]: the files at the time of the
    requests; [d]: the templates when last looked at, [ok] whether they could be
    loaded. The templates change as in C37. *)
Inductive served (book : string) (tdir : bool) : list env → dir string → bool → server → Prop :=
| served_new : served book tdir [] [] true new_server
| served_one Es d ok sv E W n m d' path sv' r :
    served book tdir Es d ok sv → follows Es E → (tdir = true → evolves d d' ∧ (ok = false → touched d d')) →
    serve_request E W book n m (if tdir then Some d' else None) path sv = (sv', r) →
    served book tdir (E :: Es)
      (if tdir && found E W book n path sv then d' else d)
      (if tdir && found E W book n path sv then tmpl_ok r else ok) sv'.

(** What the cache holds was in a file at the time of some request. *)
Definition seen (Es : list env) (p : string) (nd : Ast.node) (t : nat) : Prop :=
  ∃ E, E ∈ Es ∧ e_fs E p = Some (t, inl nd).

Lemma seen_now E Es : ∀ p mt nd, e_fs E p = Some (mt, inl nd) → seen (E :: Es) p nd mt.
Proof. intros p mt nd H. exists E. split; [left|done]. Qed.
Lemma seen_good E Es : follows Es E →
  ∀ p nd t mt x, seen (E :: Es) p nd t → e_fs E p = Some (mt, x) → mt ≤ t → x = inl nd.
Proof.
  intros F p nd t mt x (E0 & [->|Hin]%elem_of_cons & H0) H L.
  - congruence.
  - by eapply F.
Qed.
Lemma seen_more E Es c : all_good (seen Es) c → all_good (seen (E :: Es)) c.
Proof. intros G p nd t H. destruct (G _ _ _ H) as (E0 & Hin & H0). exists E0. split; [by right|done]. Qed.
Lemma seen_nil Es : all_good (seen Es) []. Proof. by intros p nd t H. Qed.

(** Loading with the cache and without. *)
Lemma load_requested_same E W book n path Es c c' : follows Es E → all_good (seen Es) c → all_good (seen Es) c' →
  (load_requested E W book n path c).2 = (load_requested E W book n path c').2 ∧
  all_good (seen (E :: Es)) (load_requested E W book n path c).1.
Proof.
  intros F G G'. unfold load_requested. destruct (request_tag "html" path) as [name|]; [|split; [done|by apply seen_more]].
  destruct (resp_load E (seen (E :: Es)) (seen_now E Es) (seen_good E Es F) (w_order W) n book [FBase] (St [] c) (St [] c')) as [(H & A & A') R].
  { split_and!; [done|by apply seen_more..]. }
  destruct (Collect.load _ _ _ _ _ (St [] c)) as [s o], (Collect.load _ _ _ _ _ (St [] c')) as [s' o']. simpl in *. subst o'.
  destruct o as [r|e| |]; simpl; try done. split; [|done]. by rewrite H.
Qed.

(** Loading templates again and for the first time. *)
Lemma templates_same d ok e d' : thistory d ok e → evolves d d' → (ok = false → touched d d') →
  (Templates.load TmplExec.parse_file empty_tree bundled_html d' e).2 =
    (Templates.load TmplExec.parse_file empty_tree bundled_html d' (new_engine bundled_html)).2 ∧
  ((Templates.load TmplExec.parse_file empty_tree bundled_html d' e).2 = true →
   e_tmpl (Templates.load TmplExec.parse_file empty_tree bundled_html d' e).1 =
   e_tmpl (Templates.load TmplExec.parse_file empty_tree bundled_html d' (new_engine bundled_html)).1).
Proof.
  intros H Ev Ht.
  assert (evolves [] d') as Ev0.
  { destruct Ev as (D & S & _). split_and!; [done..|]. by intros f ?%elem_of_nil. }
  destruct (Templates.load _ _ _ _ e) as [e1 ok1] eqn:E1. destruct (Templates.load _ _ _ _ (new_engine _)) as [e2 ok2] eqn:E2.
  pose proof (h_load _ _ _ _ _ _ _ _ _ H Ev Ht E1) as H1.
  pose proof (h_load _ _ _ _ _ _ _ _ _ (h_new _ _ _) Ev0 ltac:(done) E2) as H2.
  destruct (history_inv _ _ _ _ _ _ H1) as (_ & _ & A1). destruct (history_inv _ _ _ _ _ _ H2) as (_ & _ & A2). simpl.
  assert (∀ e e' ok s, Templates.load TmplExec.parse_file empty_tree bundled_html d' e = (e', ok) →
    add_files TmplExec.parse_file empty_tree d' bundled_html = (s, true) → ok = true) as K.
  { intros e0 e0' ok0 s E0 Ea. destruct Ev as (D & S & _). unfold Templates.load in E0.
    destruct (check_times d' (e_times e0) false D S) as (times & r & Ec & _). rewrite Ec in E0.
    destruct r; [|congruence]. rewrite Ea in E0. congruence. }
  destruct ok1, ok2; try done.
  - split; [done|]. intros _. specialize (A1 eq_refl). specialize (A2 eq_refl). congruence.
  - by specialize (K _ _ _ _ E2 (A1 eq_refl)).
  - by specialize (K _ _ _ _ E1 (A2 eq_refl)).
Qed.

Lemma served_inv book tdir Es d ok sv : served book tdir Es d ok sv →
  all_good (seen Es) (sv_cache sv) ∧ (if tdir then thistory d ok (sv_engine sv) else sv_engine sv = new_engine bundled_html).
Proof.
  induction 1 as [|Es d ok sv E W n m d' path sv' r H (IHc & IHe) F Hd Hr].
  { split; [apply seen_nil|]. destruct tdir; [constructor|done]. }
  destruct (load_requested_same E W book n path Es _ _ F IHc IHc) as [_ G].
  revert Hr. unfold serve_request, found. destruct (load_requested E W book n path (sv_cache sv)) as [c [[[h i]|]|e| |]]; simpl in *;
    try (intros [= <- <-]; rewrite andb_false_r; done).
  unfold render_requested. destruct tdir; simpl.
  - destruct (Hd eq_refl) as [Ev Ht].
    destruct (Templates.load _ _ _ _ _) as [e1 ok1] eqn:El. intros [= <- <-]. simpl. split; [done|].
    assert (tmpl_ok (if ok1 then
          match run_page (e_similar E) (e_broken E) h (w_force W) (cstring (e_similar E) (e_broken E) h (e_jumps E)) "html" true (e_tmpl e1) m i with
          | Ok bytes => Ok (RPage bytes) | Err e => Ok (RPageFailed e) | Panic => Panic | NoFuel => NoFuel end else Ok RTmplFailed) = ok1) as ->.
    { destruct ok1; [|done]. by destruct (run_page _ _ _ _ _ _ _ _ _ _). }
    by eapply h_load.
  - intros [= <- <-]. done.
Qed.

(** ** C70 *)

(** The reply does not depend on earlier requests. *)
Theorem server_forgets : ∀ book tdir Es d ok sv E W n m d' path,
  served book tdir Es d ok sv → follows Es E → (tdir = true → evolves d d' ∧ (ok = false → touched d d')) →
  (serve_request E W book n m (if tdir then Some d' else None) path sv).2 =
  (serve_request E W book n m (if tdir then Some d' else None) path new_server).2.
Proof.
  intros book tdir Es d ok sv E W n m d' path H F Hd. destruct (served_inv _ _ _ _ _ _ H) as [G He].
  destruct (load_requested_same E W book n path Es (sv_cache sv) [] F G (seen_nil Es)) as [R _].
  unfold serve_request. change (sv_cache new_server) with (@nil (string * (Ast.node * nat))).
  destruct (load_requested E W book n path (sv_cache sv)) as [c o], (load_requested E W book n path []) as [c' o']. simpl in R. subst o'.
  destruct o as [[[h i]|]|e| |]; try done. unfold render_requested. destruct tdir; [|by rewrite He].
  destruct (Hd eq_refl) as [Ev Ht]. destruct (templates_same _ _ _ _ He Ev Ht) as [H1 H2]. unfold new_server; cbn [sv_engine]; unfold tree in *.
  destruct (Templates.load TmplExec.parse_file empty_tree bundled_html d' (sv_engine sv)) as [e1 ok1],
    (Templates.load TmplExec.parse_file empty_tree bundled_html d' (new_engine bundled_html)) as [e2 ok2]. simpl in *. subst ok2.
  destruct ok1; [|done]. by rewrite H2.
Qed.
Print Assumptions server_forgets.

(** What is replied, for each request: the file server answers if the path does not
    name a tag of the book; else the book cannot be loaded, or the templates cannot,
    or a section with the tag is rendered. *)
Definition shown (r : rendered) (reply : outcome unit reply) : Prop :=
  match r with
  | Ok bytes => reply = Ok (RPage bytes)
  | Err e => reply = Ok (RPageFailed e)
  | Panic => reply = Panic
  | NoFuel => reply = NoFuel
  end.
Theorem server_replies : ∀ book tdir Es d ok sv E W n m d' path,
  served book tdir Es d ok sv → follows Es E → (tdir = true → evolves d d' ∧ (ok = false → touched d d')) →
  has_prefix "/" path = true →
  let reply := (serve_request E W book n m (if tdir then Some d' else None) path sv).2 in
  ((∀ name, ¬ names "html" path name) → reply = Ok RStatic) ∧
  ∀ name, names "html" path name →
    match Collect.load E (w_order W) n book [FBase] (St [] []) with
    | (_, Err e) => reply = Ok (RLoadFailed e)
    | (_, Panic) => reply = Panic
    | (_, NoFuel) => reply = NoFuel
    | (s, Ok r) =>
      ((∀ i x t, descendant (st_heap s) r i → st_heap s !! i = Some x → t ∈ s_tags x → t_name t ≠ name) ∧ reply = Ok RStatic) ∨
      ∃ i x t, descendant (st_heap s) r i ∧ st_heap s !! i = Some x ∧ t ∈ s_tags x ∧ t_name t = name ∧
        ((tdir = true ∧ (∃ e, thistory d' false e) ∧ reply = Ok RTmplFailed) ∨
         ∃ tmpls, (if tdir then ∃ e, thistory d' true e ∧ tmpls = e_tmpl e else tmpls = bundled_html) ∧
           shown (run_page (e_similar E) (e_broken E) (st_heap s) (w_force W)
                    (cstring (e_similar E) (e_broken E) (st_heap s) (e_jumps E)) "html" true tmpls m i) reply)
    end.
Proof.
  intros book tdir Es d ok sv E W n m d' path H F Hd Hp reply. unfold reply. clear reply.
  rewrite (server_forgets _ _ _ _ _ _ E W n m d' path H F Hd). unfold serve_request, load_requested.
  change (sv_cache new_server) with (@nil (string * (Ast.node * nat))). split.
  { intros Hn. destruct (request_tag "html" path) as [name|] eqn:Er; [|done]. apply (request_names _ _ _ Hp) in Er. by destruct (Hn name). }
  intros name Hn. apply (request_names _ _ _ Hp) in Hn. rewrite Hn.
  destruct (Collect.load E (w_order W) n book [FBase] (St [] [])) as [s [r|e| |]] eqn:El; try done.
  destruct (loaded_section_is_top _ _ _ _ _ _ _ _ history_start El) as [_ Ht].
  destruct (history_wf _ history_start) as [W0 O0]. destruct (load_wf E (w_order W) n book [FBase] (St [] []) W0 O0) as [Wh O].
  rewrite El in Wh, O. simpl in Wh, O.
  destruct (request_scope (st_heap s) r "html" path Wh Ht name Hn) as (ts & Ef & Hts). rewrite Ef.
  destruct ts as [|t ts].
  { left. split; [|done]. intros i x t Hi Hx Htx Hnm. assert (t ∈ []) as X by (apply Hts; exists i, x; done). by apply elem_of_nil in X. }
  right. destruct (Hts t) as [X _]. destruct X as (i & x & Hi & Hx & Htx & Hnm); [left|]. exists i, x, t. split_and!; [done..|].
  rewrite (O _ _ _ Hx Htx). unfold render_requested.
  destruct tdir; unfold new_server; cbn [sv_engine]; unfold tree in *.
  - destruct (Hd eq_refl) as [Ev _].
    assert (evolves [] d') as Ev0.
    { destruct Ev as (D & S & _). split_and!; [done..|]. by intros f ?%elem_of_nil. }
    destruct (Templates.load TmplExec.parse_file empty_tree bundled_html d' (new_engine bundled_html)) as [e okt] eqn:Et.
    pose proof (h_load _ _ _ _ _ _ _ _ _ (h_new _ _ _) Ev0 ltac:(done) Et) as Hh. destruct okt; [right|left; eauto].
    exists (e_tmpl e). split; [eauto|]. cbn [snd]. by destruct (run_page _ _ _ _ _ _ _ _ _ _).
  - right. exists bundled_html. split; [done|]. cbn [snd new_engine e_tmpl]. by destruct (run_page _ _ _ _ _ _ _ _ _ _).
Qed.
Print Assumptions server_replies.

(** A file that has been evaluated and has not changed since is not parsed again: it
    does not matter what parsing it would give. *)
Theorem server_parses_once : ∀ E n path fs s s' i mt x, e_fs E path = Some (mt, x) → load_file E n path fs s = (s', Ok i) →
  ∃ nd, (x = inl nd ∨ ∃ t, assoc_get path (st_cache s) = Some (nd, t) ∧ mt ≤ t) ∧
    ∀ mt' x', mt' ≤ mt → parse_step path mt' x' s' = (s', Ok nd).
Proof.
  intros E n path fs s s' i mt x Hx. unfold load_file, evaluate_file. rewrite Hx. unfold Evaluate.mbind at 1.
  destruct (parse_step path mt x s) as [s1 [nd|e| |]] eqn:Ep; try done. unfold parse_step in Ep.
  assert (x = inl nd ∨ ∃ t, assoc_get path (st_cache s) = Some (nd, t) ∧ mt ≤ t) as Hnd.
  { destruct (assoc_get path (st_cache s)) as [[n0 t]|].
    - destruct (Nat.ltb_spec t mt); injection Ep as _ Ep; [destruct x; simplify_eq; by left|]. subst n0. right. eauto.
    - injection Ep as _ Ep. destruct x; simplify_eq; by left. }
  unfold Evaluate.mbind. destruct (alloc _ _ _) as [s2 [j|e| |]]; try done.
  destruct (evaluate_section _ _ _ _ _) as [s3 [u|e| |]]; try done. intros [= <- <-]. exists nd. split; [done|].
  intros mt' x' Hm. unfold parse_step. cbn [st_cache]. rewrite assoc_get_set, String.eqb_refl.
  rewrite (proj2 (Nat.ltb_ge _ _)) by lia. done.
Qed.
Print Assumptions server_parses_once.

(** What is shown for a page is what a build would write now. [E]: the files and
    plugins; the templates of [c] are those of a directory or the bundled ones. *)
Definition templates_dir (Y : system) (c : command) : dir string := y_glob Y (c_html c).
Definition has_dir (c : command) : bool := negb (String.eqb (c_html c) "").

Theorem server_builds : ∀ Y E W c n m fs fs' out Es d ok sv,
  served (o_in (c_opt c)) (has_dir c) Es d ok sv → follows Es E →
  (has_dir c = true → evolves d (templates_dir Y c) ∧ (ok = false → touched d (templates_dir Y c))) →
  o_text (c_opt c) = "" → o_out (c_opt c) ≠ "" → o_tag (c_opt c) = "" → o_path (c_opt c) = "" →
  build_command Y E W c n m fs = (fs', Ok out) →
  ∃ s r pages, Collect.load E (w_order W) n (o_in (c_opt c)) [FBase] (St [] []) = (s, Ok r) ∧
    pages_of (st_heap s) r pages ∧
    ∀ path j, j ∈ pages → requested (st_heap s) r "html" path = Some (RSection j) →
    ∃ bytes,
      (serve_request E W (o_in (c_opt c)) n m (if has_dir c then Some (templates_dir Y c) else None) path sv).2 = Ok (RPage bytes) ∧
      ((∀ k, k ∈ pages → file_of (st_heap s) "html" k = file_of (st_heap s) "html" j → k = j) →
       ¬ (o_index (c_opt c) = true ∧ file_of (st_heap s) "html" j = "search_index.json") →
       assoc_get (file_of (st_heap s) "html" j) fs' = Some bytes).
Proof.
  intros Y E W c n m fs fs' out Es d ok sv Hs Hf Hd Ht Ho Htag Hpath Hb.
  unfold build_command in Hb. destruct (engine_templates (y_glob Y) c) as [tmpls|] eqn:Etm; [|done].
  destruct (build_with _ _ _ _ _ _) as [fs1 [o|f| |]] eqn:Eb; try done. injection Hb as -> ->.
  destruct (build_writes _ _ _ _ _ _ _ _ Ho Eb) as (-> & s & r & i & pages & (s0 & Hl & Hc) & Hpg & H1 & _).
  destruct Hc as [(_ & _ & -> & ->)|[(? & _)|(_ & ? & _)]]; try done.
  assert (extension (c_opt c) = "html") as Hx by (unfold extension; by rewrite Ht). rewrite Hx in *.
  exists s0, r, pages. split_and!; [done..|]. intros path j Hj Hr.
  destruct (H1 j Hj) as (bytes & Hpgj & Hw). exists bytes. split; [|done].
  rewrite (server_forgets _ _ _ _ _ _ E W n m _ path Hs Hf Hd).
  unfold serve_request, load_requested. change (sv_cache new_server) with (@nil (string * (Ast.node * nat))).
  unfold requested in Hr. destruct (request_tag "html" path) as [name|]; [|done]. rewrite Hl.
  destruct (find_tag (st_heap s0) r name) as [[|t ts]|] eqn:Eft; simpl in Hr; try done.
  destruct (t_section t) as [k|] eqn:Et; simpl in Hr; [|done]. injection Hr as ->.
  unfold render_requested, new_server. cbn [sv_engine].
  assert (is_html (c_opt c) = true) as Hh by (unfold is_html; by rewrite Ht).
  unfold engine_templates, bundled in Etm. rewrite Hh in Etm. unfold has_dir, templates_dir.
  unfold template_page in Hpgj. rewrite Hh, Hx in Hpgj.
  destruct (String.eqb (c_html c) ""); cbn [negb].
  - injection Etm as <-. cbn [e_tmpl new_engine snd]. by rewrite Hpgj.
  - unfold tree. destruct (Templates.load _ _ _ _ _) as [e okt]. destruct okt; [|done]. injection Etm as <-. cbn [snd]. by rewrite Hpgj.
Qed.
Print Assumptions server_builds.

(** In particular for every titled page of a book with the base plugin, under its
    own URL. *)
Theorem server_site : ∀ Y E W c n m fs fs' out Es d ok sv,
  base_only E → (∀ k n, w_order W k n ≡ₚ seq 0 n) →
  (∀ path mt e, e_fs E path = Some (mt, inr e) → wrapped_once e) →
  served (o_in (c_opt c)) (has_dir c) Es d ok sv → follows Es E →
  (has_dir c = true → evolves d (templates_dir Y c) ∧ (ok = false → touched d (templates_dir Y c))) →
  o_text (c_opt c) = "" → o_out (c_opt c) ≠ "" → o_tag (c_opt c) = "" → o_path (c_opt c) = "" →
  build_command Y E W c n m fs = (fs', Ok out) →
  ∃ s r pages, Collect.load E (w_order W) n (o_in (c_opt c)) [FBase] (St [] []) = (s, Ok r) ∧
    pages_of (st_heap s) r pages ∧
    ∀ j x, j ∈ pages → st_heap s !! j = Some x → s_primary x ≠ tag0 →
      (∀ k y t, descendant (st_heap s) r k → st_heap s !! k = Some y → t ∈ s_tags y → t_name t = t_name (s_primary x) → k = j) →
      (∀ k, k ∈ pages → file_of (st_heap s) "html" k = file_of (st_heap s) "html" j → k = j) →
      ¬ (o_index (c_opt c) = true ∧ file_of (st_heap s) "html" j = "search_index.json") →
      ∃ bytes, assoc_get (file_of (st_heap s) "html" j) fs' = Some bytes ∧
        (serve_request E W (o_in (c_opt c)) n m (if has_dir c then Some (templates_dir Y c) else None)
           ("/" +:+ file_of (st_heap s) "html" j) sv).2 = Ok (RPage bytes).
Proof.
  intros Y E W c n m fs fs' out Es d ok sv HB HW He Hs Hf Hd Ht Ho Htag Hpath Hb.
  destruct (server_builds _ _ _ _ _ _ _ _ _ _ _ _ _ Hs Hf Hd Ht Ho Htag Hpath Hb) as (s & r & pages & Hl & Hpg & H).
  exists s, r, pages. split_and!; [done..|]. intros j x Hj Hx Hne Hu Hfile Hi.
  assert (∃ s1, load_file E n (o_in (c_opt c)) [FBase] (St [] []) = (s1, Ok r)) as (s1 & Hlf).
  { unfold Collect.load, mbind in Hl. destruct (load_file _ _ _ _ _) as [s1 [k|e| |]]; try done.
    unfold run_stages in Hl. destruct (collect _ _ _ _ _) as [[h q]|e| |]; simplify_eq. eauto. }
  destruct (server_loaded E (w_order W) n (o_in (c_opt c)) [FBase] (St [] []) s1 r HB HW history_start He Hlf) as (s' & Hl' & K).
  assert (s' = s) as -> by congruence. apply (pages_of_elem _ _ _ j) in Hpg as Hp. destruct (proj1 Hp Hj) as [Hpj Hdj].
  destruct (H _ j Hj (K j x Hdj Hpj Hx Hne Hu "html")) as (bytes & Hr & Hw). exists bytes. split; [by apply Hw|done].
Qed.
Print Assumptions server_site.

(** *** Cases *)

Definition one_file (t : nat) (text : string) : disk :=
  λ p, if String.eqb p "/b/a.lit" then Some (t, "\title{A}" +:+ lf +:+ lf +:+ text +:+ lf) else None.
Definition ask (d : disk) (t : list (file string)) (path : string) (sv : server) : server * outcome unit reply :=
  serve_request (reading d plain_env) ex_world "/b/a.lit" 20 20 (Some t) path sv.
Definition italic_file (t : Z) (text : string) : list (file string) := [File "italic.tmpl" (Some t) (Some text)].
Definition shows (r : outcome unit reply) (text : string) : bool :=
  match r with Ok (RPage bytes) => contains_str text bytes | _ => false end.

Lemma one_follows Es t' text' :
  (∀ E0, E0 ∈ Es → ∃ t text, E0 = reading (one_file t text) plain_env ∧ (t < t' ∨ text = text')) →
  follows Es (reading (one_file t' text') plain_env).
Proof.
  intros H E0 p t x t1 x1 Hin H0 H1 L. destruct (H _ Hin) as (u & text & -> & Hu). cbn [reading e_fs] in H0, H1. unfold one_file in *.
  destruct (String.eqb p "/b/a.lit"); [|done]. cbn [base.mbind option_bind] in *. injection H0 as -> <-. injection H1 as -> <-.
  destruct Hu as [|<-]; [lia|done].
Qed.
Lemma italic_evolves d t text : (d = [] ∨ ∃ t0 text0, d = italic_file t0 text0 ∧ (t0 < t ∨ t0 = t ∧ text0 = text)%Z) →
  evolves d (italic_file t text).
Proof.
  intros H. split_and!.
  - repeat constructor.
  - by intros f ->%elem_of_list_singleton.
  - intros f Hf. destruct H as [->|(t0 & text0 & -> & H)]; [by apply elem_of_nil in Hf|]. apply elem_of_list_singleton in Hf as ->.
    exists (File "italic.tmpl" (Some t) (Some text)), t0, t. split_and!; [by left|done..|]. simpl. destruct H as [H|[-> ->]]; auto.
Qed.

Lemma served_step book Es d ok sv E W n m d' path d2 ok2 :
  served book true Es d ok sv → follows Es E → evolves d d' → (ok = false → touched d d') →
  (if found E W book n path sv then d' else d) = d2 →
  (if found E W book n path sv then tmpl_ok (serve_request E W book n m (Some d') path sv).2 else ok) = ok2 →
  served book true (E :: Es) d2 ok2 (serve_request E W book n m (Some d') path sv).1.
Proof. intros H F Ev Ht <- <-. apply (served_one book true Es d ok sv E W n m d' path _ _ H F (λ _, conj Ev Ht)). apply surjective_pairing. Qed.

(** Three requests; the document and a template change in between. *)
Definition old_italic : string := "<i>{{.Content | render}}</i>".
Definition new_italic : string := "<u>{{.Content | render}}</u>".
Definition sv1 : server := (ask (one_file 1 "Say \italic{it}.") (italic_file 1 old_italic) "/a.html" new_server).1.
Definition sv2 : server := (ask (one_file 2 "Say \italic{that}.") (italic_file 1 old_italic) "/x.html" sv1).1.
Example ex_serving :
  (∃ Es d, served "/b/a.lit" true Es d true sv2 ∧ follows Es (reading (one_file 2 "Say \italic{that}.") plain_env) ∧
     evolves d (italic_file 3 new_italic)) ∧
  shows (ask (one_file 1 "Say \italic{it}.") (italic_file 1 old_italic) "/a.html" new_server).2 "Say <i>it</i>." = true ∧
  (ask (one_file 2 "Say \italic{that}.") (italic_file 1 old_italic) "/x.html" sv1).2 = Ok RStatic ∧
  shows (ask (one_file 2 "Say \italic{that}.") (italic_file 3 new_italic) "/a.html" sv2).2 "Say <u>that</u>." = true ∧
  (ask (one_file 3 "Say \italic{that}.") (italic_file 4 "{{if}}") "/a.html" sv2).2 = Ok RTmplFailed.
Proof.
  split; [|split_and!; vm_compute; reflexivity].
  exists [reading (one_file 2 "Say \italic{that}.") plain_env; reading (one_file 1 "Say \italic{it}.") plain_env], (italic_file 1 old_italic).
  split_and!.
  - eapply served_step.
    + eapply (served_step _ [] [] true new_server); [constructor|by apply one_follows; intros ? ?%elem_of_nil|by apply italic_evolves; left|done|..].
      * instantiate (1 := italic_file 1 old_italic). vm_compute. reflexivity.
      * instantiate (1 := true). vm_compute. reflexivity.
    + apply one_follows. intros ? ->%elem_of_list_singleton. do 2 eexists. split; [done|left; lia].
    + apply italic_evolves. right. eauto 10.
    + done.
    + vm_compute. reflexivity.
    + vm_compute. reflexivity.
  - apply one_follows. intros E0 [->|[->|[]%elem_of_nil]%elem_of_cons]%elem_of_cons; do 2 eexists; (split; [done|]); [by right|left; lia].
  - apply italic_evolves. right. do 2 eexists. split; [done|]. lia.
Qed.

(** A file that is replaced by an older one keeps being shown. *)
Theorem server_older_refuted : ∃ E E' W book n m d path,
  let sv := (serve_request E W book n m d path new_server).1 in
  (serve_request E' W book n m d path sv).2 ≠ (serve_request E' W book n m d path new_server).2.
Proof.
  exists (reading (one_file 5 "new") plain_env), (reading (one_file 4 "old") plain_env), ex_world, "/b/a.lit", 20, 20, None, "/a.html".
  cbv zeta. intros H. apply (f_equal (λ r, shows r "old")) in H. vm_compute in H. discriminate H.
Qed.
Print Assumptions server_older_refuted.

(** The server knows HTML only: what a build with --text-file-extension writes is not
    what is served. *)
Theorem server_text_refuted : ∃ E W c n m fs' name bytes, o_text (c_opt c) ≠ "" ∧
  build_command ex_system E W c n m [] = (fs', Ok "") ∧ assoc_get name fs' = Some bytes ∧
  (serve_request E W (o_in (c_opt c)) n m None ("/" +:+ name) new_server).2 = Ok RStatic.
Proof.
  exists (reading (one_file 5 "new") plain_env), ex_world, (Cmd (Options "/b/a.lit" "out" "" "" false "md") "" "" false 0 []), 20, 20.
  eexists. exists "a.md". eexists. split; [done|]. split; [vm_compute; reflexivity|]. split; vm_compute; reflexivity.
Qed.
Print Assumptions server_text_refuted.
