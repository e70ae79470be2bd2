(** C65: builds are reproducible. The order in which Go visits the entries of a map
    may be different in every run. *)
From Coq Require Import Ascii String Lia.
From stdpp Require Import base tactics relations strings list.
From Verif Require Import GoBase Ast Content Section Render Peg Evaluate EvalInv Collect CollectSpec CollectAt Html TextRender Json
  WriterProofs Command Props_Command ReproSpec Repro ReproRead ReproIndex BaseInv ReproEval.
Local Open Scope string_scope.
Local Open Scope list_scope.

(** A file that loads in one order loads in every order, as the same section. The
    sections are the same but for the order of their tags. *)
Theorem repro_load : ∀ E ord ord' n path fs s s1 r, orders ord → orders ord' →
  load E ord n path fs s = (s1, Ok r) →
  ∃ s2, load E ord' n path fs s = (s2, Ok r) ∧ length (st_heap s2) = length (st_heap s1) ∧
    ∀ i x, st_heap s1 !! i = Some x → ∃ ts, st_heap s2 !! i = Some (set_tags x ts) ∧ ts ≡ₚ s_tags x.
Proof.
  intros E ord ord' n path fs s s1 r O O' Hl. destruct (load_alike _ _ _ _ _ _ _ _ _ O O' Hl) as (s2 & Hl2 & [HL HA]).
  exists s2. split; [done|]. split; [done|]. intros i x Hx. destruct (HA _ _ Hx) as (A & B & B' & Et & E2 & P & _).
  exists (A ++ B'). split; [done|]. by rewrite Et, P.
Qed.
Print Assumptions repro_load.

Lemma stages_end ord ord' i s s' : orders ord → orders ord' → srel s s' →
  (∃ s1 s2 r, run_stages ord i s = (s1, Ok r) ∧ run_stages ord' i s' = (s2, Ok r) ∧ srel s1 s2) ∨
  (∃ s1 s2 e, run_stages ord i s = (s1, Err e) ∧ run_stages ord' i s' = (s2, Err e)) ∨
  gone (snd (run_stages ord i s)) ∧ gone (snd (run_stages ord' i s')).
Proof.
  intros O O' HR. assert (srel s' s) as HR' by (by apply srel_sym).
  assert (∀ ord i s t e, run_stages ord i s ≠ (t, Err e)) as HN.
  { intros ord0 i0 s0 t0 e0. unfold run_stages. destruct (collect _ _ _ _ _) as [[]|e| |] eqn:Ec; try done. by apply collect_no_error in Ec. }
  destruct (run_stages ord i s) as [s1 [r|e| |]] eqn:E1.
  - left. destruct (stages_alike ord ord' i s s' s1 r O O' HR E1) as (s2 & E2 & H). by exists s1, s2, r.
  - by apply HN in E1.
  - right. right. split; [done|]. destruct (run_stages ord' i s') as [s2 [r|e| |]] eqn:E2; try done.
    + destruct (stages_alike ord' ord i s' s s2 r O' O HR' E2) as (s3 & E3 & _). congruence.
    + by apply HN in E2.
  - right. right. split; [done|]. destruct (run_stages ord' i s') as [s2 [r|e| |]] eqn:E2; try done.
    + destruct (stages_alike ord' ord i s' s s2 r O' O HR' E2) as (s3 & E3 & _). congruence.
    + by apply HN in E2.
Qed.

Lemma load_end E ord ord' n path fs s : orders ord → orders ord' →
  (∃ s1 s2 r, load E ord n path fs s = (s1, Ok r) ∧ load E ord' n path fs s = (s2, Ok r) ∧ srel s1 s2) ∨
  (∃ s1 s2 e, load E ord n path fs s = (s1, Err e) ∧ load E ord' n path fs s = (s2, Err e)) ∨
  gone (snd (load E ord n path fs s)) ∧ gone (snd (load E ord' n path fs s)).
Proof.
  intros O O'. unfold load, mbind. destruct (load_file E n path fs s) as [s0 [i|e| |]].
  - apply stages_end; [done..|]. split; [apply alike_refl|done].
  - right. left. by exists s0, s0, e.
  - by right; right.
  - by right; right.
Qed.

Lemma load_in_end E ord ord' n p path fs s s' : indifferent E → orders ord → orders ord' → srel s s' →
  (∃ s1 s2 r, load_in E ord n p path fs s = (s1, Ok r) ∧ load_in E ord' n p path fs s' = (s2, Ok r) ∧ srel s1 s2) ∨
  (∃ s1 s2 e, load_in E ord n p path fs s = (s1, Err e) ∧ load_in E ord' n p path fs s' = (s2, Err e)) ∨
  gone (snd (load_in E ord n p path fs s)) ∧ gone (snd (load_in E ord' n p path fs s')).
Proof.
  intros HE O O' HR. unfold load_in, mbind.
  destruct (ag_file E (eval E n) (ag_eval E HE n) p path fs s s' HR) as [H1 H2].
  destruct (evaluate_file E (eval E n) p path fs s) as [s0 o], (evaluate_file E (eval E n) p path fs s') as [s0' o'].
  simpl in *. subst o'. destruct o as [i|e| |].
  - by apply stages_end.
  - right. left. by exists s0, s0', e.
  - by right; right.
  - by right; right.
Qed.

Lemma choose_end E W W' o n : orders (w_order W) → orders (w_order W') → o_path o = "" ∨ indifferent E →
  (∃ s1 s2 r i, choose E W o n = (s1, Ok (r, i)) ∧ choose E W' o n = (s2, Ok (r, i)) ∧ alike (st_heap s1) (st_heap s2)) ∨
  (∃ s1 s2 e, choose E W o n = (s1, Err e) ∧ choose E W' o n = (s2, Err e)) ∨
  gone (snd (choose E W o n)) ∧ gone (snd (choose E W' o n)).
Proof.
  intros O O' Hp. unfold choose.
  destruct (load_end E _ _ n (o_in o) [FBase] (St [] []) O O') as [(s1 & s2 & r & E1 & E2 & HR)|[(s1 & s2 & e & E1 & E2)|[G1 G2]]].
  - rewrite E1, E2. pose proof HR as [HA _]. destruct (negb (String.eqb (o_tag o) "")).
    + destruct (find_tag_alike _ _ HA r (o_tag o)) as [|l l' [P Q]]; [right; right; done|].
      destruct l as [|t l].
      * apply Permutation_nil_l in P as <-. right. left. by eexists _, _, _.
      * destruct l' as [|t' l']; [by apply Permutation_length in P|]. simpl in Q. injection Q as Q _. rewrite <- Q.
        destruct (t_section t) as [i|]; [|by right; right]. left. by exists s1, s2, r, i.
    + destruct (String.eqb_spec (o_path o) "") as [Ep|Ep]; simpl; [left; by exists s1, s2, r, r|].
      destruct Hp as [|HE]; [done|].
      destruct (load_in_end E _ _ n (Some r) (o_path o) [FBase] s1 s2 HE O O' HR)
        as [(t1 & t2 & i & F1 & F2 & HR')|[(t1 & t2 & e & F1 & F2)|[G1 G2]]].
      * rewrite F1, F2. left. exists t1, t2, r, i. split_and!; [done..|]. by destruct HR'.
      * rewrite F1, F2. right. left. by eexists _, _, _.
      * right. right. destruct (load_in E (w_order W) n _ _ _ _) as [? []], (load_in E (w_order W') n _ _ _ _) as [? []]; done.
  - rewrite E1, E2. right. left. by eexists _, _, _.
  - right. right. destruct (load E (w_order W) n _ _ _) as [? []], (load E (w_order W') n _ _ _) as [? []]; done.
Qed.

Lemma page_end E W W' o m h h' i : but_order W W' → alike h h' → rsame (page E W o m h i) (page E W' o m h' i).
Proof.
  intros (Hf & _) HA. unfold page. rewrite Hf. destruct (String.eqb (o_text o) "").
  - apply html_page_alike; [done|]. intros c. by apply cstring_alike.
  - apply text_page_alike; [done|]. intros c. by apply cstring_alike.
Qed.

Lemma build_end E W W' o n m fs : but_order W W' → orders (w_order W) → orders (w_order W') → o_path o = "" ∨ indifferent E →
  (∃ s r i h', choose E W o n = (s, Ok (r, i)) ∧ alike (st_heap s) h' ∧ o_index o = true ∧ o_out o ≠ "" ∧
    (let str h := cstring (e_similar E) (e_broken E) h (e_jumps E) in ∃ fs1,
     let w h := write_search_index (w_short W) (str h) h (w_open W) (extension o) r "search_index.json" fs1 in
     let fin := λ r : outcome error files, match r with Ok fs => (fs, Ok "") | Err e => (fs1, Err (FIndex e)) | Panic => (fs1, Panic) | NoFuel => (fs1, NoFuel) end in
     build E W o n m fs = fin (w (st_heap s)) ∧ build E W' o n m fs = fin (w h'))) ∨
  (fst (build E W o n m fs) = fst (build E W' o n m fs) ∧
   same_end same_failure (snd (build E W o n m fs)) (snd (build E W' o n m fs))).
Proof.
  intros HB O O' Hp. unfold build, build_with.
  destruct (choose_end E W W' o n O O' Hp) as [(s1 & s2 & r & i & Hl & -> & HA)|[(s1 & s2 & e & -> & ->)|[G1 G2]]].
  - rewrite Hl. destruct (String.eqb_spec (o_out o) "") as [Ho|Ho].
    { right. destruct (page_end E W W' o m _ _ i HB HA); simpl; (split; [done|]); try by do 2 constructor. }
    pose proof HB as (Hf & Hpa & Hmk & Hop & Hsh). rewrite <- Hmk. destruct (w_mkdir W); [|right; split; [done|]; by do 2 constructor].
    pose proof (write_alike (st_heap s1) (st_heap s2) HA (w_open W) (extension o) (engine_with W (page E W o m (st_heap s1)))
      (engine_with W' (page E W' o m (st_heap s2))) i fs) as Hw. rewrite <- Hop, <- Hsh.
    destruct Hw as [|a b [fs1|fs1 e e' He]].
    { intros j. unfold engine_with. rewrite <- Hpa.
      destruct (page_end E W W' o m _ _ j HB HA) as [x|[]|x x' Hx| |]; simpl; (split; [done|]); try apply opt_none;
        apply opt_some; first [exact Hx|apply same_refl]. }
    + right. split; [done|]. by constructor 3.
    + destruct (o_index o); [|right; split; [done|constructor]]. left. exists s1, r, i, (st_heap s2).
      do 4 (split; [done|]). cbv zeta. exists fs1. split; done.
    + right. split; [done|]. by do 2 constructor.
  - right. split; [done|]. by do 2 constructor.
  - right. destruct (choose E W o n) as [? [[]| | |]], (choose E W' o n) as [? [[]| | |]]; try done; (split; [done|]); by constructor 3.
Qed.

(** The same pages are written or printed, whatever the order of map iteration,
    and failures are the same but for the order of what they list. Only the search
    index may be a different one. *)
Theorem repro_pages : ∀ E W W' o n m fs, but_order W W' → orders (w_order W) → orders (w_order W') →
  o_path o = "" ∨ indifferent E →
  (∀ name, o_index o = false ∨ name ≠ "search_index.json" →
     assoc_get name (fst (build E W o n m fs)) = assoc_get name (fst (build E W' o n m fs))) ∧
  same_end same_failure (snd (build E W o n m fs)) (snd (build E W' o n m fs)).
Proof.
  intros E W W' o n m fs HB O O' Hp.
  destruct (build_end E W W' o n m fs HB O O' Hp) as [(s & r & i & h' & Hl & HA & Hi & Ho & Hb)|[-> ?]]; [|done].
  cbv zeta in Hb. destruct Hb as (fs1 & -> & ->).
  destruct (write_index_kind (st_heap s) h' HA (extension o) _ (cstring (e_similar E) (e_broken E) h' (e_jumps E))
    (λ c, cstring_alike (e_similar E) (e_broken E) _ _ HA (e_jumps E) c) (λ c e, cstring_no_err _ _ _ _ _ _)
    (w_short W) (w_open W) r "search_index.json" fs1) as [(x & y & -> & ->)|[(e & -> & ->)|[G G']]].
  - split; [|constructor]. intros name [Hn|Hn]; [congruence|]. simpl. rewrite !assoc_get_set.
    by destruct (String.eqb_spec "search_index.json" name) as [<-|].
  - split; [done|]. by do 2 constructor.
  - destruct (write_search_index _ _ (st_heap s) _ _ _ _ _); try done; destruct (write_search_index _ _ h' _ _ _ _ _); try done;
      (split; [done|]); by constructor 3.
Qed.
Print Assumptions repro_pages.

(** If no section registers a name twice, the search index is the same as well. *)
Theorem repro_build : ∀ E W W' o n m fs, but_order W W' → orders (w_order W) → orders (w_order W') →
  o_path o = "" ∨ indifferent E →
  (∀ s r i j x, choose E W o n = (s, Ok (r, i)) → st_heap s !! j = Some x → NoDup (map t_name (s_tags x))) →
  fst (build E W o n m fs) = fst (build E W' o n m fs) ∧
  same_end same_failure (snd (build E W o n m fs)) (snd (build E W' o n m fs)).
Proof.
  intros E W W' o n m fs HB O O' Hp Hd.
  destruct (build_end E W W' o n m fs HB O O' Hp) as [(s & r & i & h' & Hl & HA & Hi & Ho & Hb)|[-> ?]]; [|done].
  cbv zeta in Hb. destruct Hb as (fs1 & -> & ->).
  pose proof (write_index_alike (st_heap s) h' HA (extension o) _ (cstring (e_similar E) (e_broken E) h' (e_jumps E))
    (λ c, cstring_alike (e_similar E) (e_broken E) _ _ HA (e_jumps E) c) (λ c e, cstring_no_err _ _ _ _ _ _)
    (λ j x Hx, Hd s r i j x Hl Hx) (w_short W) (w_open W) r "search_index.json" fs1) as Hw.
  pose proof (write_index_kind (st_heap s) h' HA (extension o) _ (cstring (e_similar E) (e_broken E) h' (e_jumps E))
    (λ c, cstring_alike (e_similar E) (e_broken E) _ _ HA (e_jumps E) c) (λ c e, cstring_no_err _ _ _ _ _ _)
    (w_short W) (w_open W) r "search_index.json" fs1) as [(x & y & Hx & Hy)|[(e & -> & ->)|[G G']]].
  - rewrite Hx, Hy in Hw |- *. assert (assoc_set "search_index.json" x fs1 = assoc_set "search_index.json" y fs1) as -> by (by inversion Hw).
    split; [done|constructor].
  - split; [done|]. by do 2 constructor.
  - destruct (write_search_index _ _ (st_heap s) _ _ _ _ _); try done; destruct (write_search_index _ _ h' _ _ _ _ _); try done;
      (split; [done|]); by constructor 3.
Qed.
Print Assumptions repro_build.

(** ** A book with targets in partials *)

Definition backwards : world := World (λ _ n, rev (seq 0 n)) (λ _, None) (λ _, "") true (λ _, true) true.

Lemma forth_and_back : but_order fine backwards ∧ orders (w_order fine) ∧ orders (w_order backwards).
Proof. split; [done|]. split; intros k n; simpl; [done|]. by rewrite <- Permutation_rev. Qed.

Definition partial_book (a b tail : string) : disk := λ p, if String.eqb p "/a.lit" then Some (1, "\title{Top}

\set-partial{one}{\target{" +:+ a +:+ "}{One}}

\set-partial{two}{\target{" +:+ b +:+ "}{Two}}

" +:+ tail) else None.

(** The tags are collected in another order; the files are the same. *)
Example partials_forth : let d := partial_book "x" "y" "See \reference{x} and \reference{y}." in
  let tags W := map (λ x, map t_name (s_tags x)) (st_heap (fst (load (reading d plain_env) (w_order W) 20 "/a.lit" [FBase] (St [] [])))) in
  tags fine = [["top"; "x"; "y"]] ∧ tags backwards = [["top"; "y"; "x"]] ∧
  ∃ page idx, build (reading d plain_env) fine (Options "/a.lit" "out" "" "" true "") 20 20 [] =
      ([("top.html", page); ("search_index.json", idx)], Ok "") ∧
    build (reading d plain_env) backwards (Options "/a.lit" "out" "" "" true "") 20 20 [] =
      ([("top.html", page); ("search_index.json", idx)], Ok "").
Proof.
  cbv zeta. split; [vm_compute; reflexivity|]. split; [vm_compute; reflexivity|].
  eexists _, _. split; vm_compute; reflexivity.
Qed.
Example partials_once : ∀ s r i j x,
  choose (reading (partial_book "x" "y" "See \reference{x} and \reference{y}.") plain_env) fine (Options "/a.lit" "out" "" "" true "") 20 = (s, Ok (r, i)) →
  st_heap s !! j = Some x → NoDup (map t_name (s_tags x)).
Proof.
  intros s r i j x Hl Hx.
  assert (map (λ x, map t_name (s_tags x)) (st_heap s) = [["top"; "x"; "y"]]) as Ht.
  { replace s with (fst (choose (reading (partial_book "x" "y" "See \reference{x} and \reference{y}.") plain_env) fine (Options "/a.lit" "out" "" "" true "") 20))
      by (by rewrite Hl). vm_compute. reflexivity. }
  assert (map (λ x, map t_name (s_tags x)) (st_heap s) !! j = Some (map t_name (s_tags x))) as Hi.
  { rewrite list_lookup_fmap, Hx. done. }
  rewrite Ht in Hi. destruct j as [|j]; [|done]. injection Hi as <-. clear. apply (bool_decide_unpack _). vm_compute. done.
Qed.

(** With --section-path a second file is evaluated after the tags of the book have
    been collected, in either order. *)
Definition path_book : disk := λ p, if String.eqb p "/b.lit" then Some (1, "\title{Second}

\link{see}{\reference{x}} and \reference{y}.") else partial_book "x" "y" "" p.
Example path_forth : let o := Options "/a.lit" "" "" "/b.lit" false "" in
  let tags W := map (λ x, map t_name (s_tags x)) (st_heap (fst (choose (reading path_book plain_env) W o 20))) in
  indifferent (reading path_book plain_env) ∧
  tags fine = [["top"; "x"; "y"]; ["second"]] ∧ tags backwards = [["top"; "y"; "x"]; ["second"]] ∧
  ∃ page, build (reading path_book plain_env) fine o 20 20 [] = ([], Ok page) ∧
    build (reading path_book plain_env) backwards o 20 20 [] = ([], Ok page).
Proof.
  cbv zeta. split; [apply base_indifferent; split; [done|]; by intros [|]|].
  split; [vm_compute; reflexivity|]. split; [vm_compute; reflexivity|].
  eexists. split; vm_compute; reflexivity.
Qed.

(** A name registered twice in one section: which of the two is in the search index
    is not determined. *)
Theorem repro_index_refuted : ∃ E o W W', but_order W W' ∧ orders (w_order W) ∧ orders (w_order W') ∧ o_path o = "" ∧
  ∃ p i i', build E W o 20 20 [] = ([("top.html", p); ("search_index.json", i)], Ok "") ∧
    build E W' o 20 20 [] = ([("top.html", p); ("search_index.json", i')], Ok "") ∧ i ≠ i'.
Proof.
  exists (reading (partial_book "x" "x" "") plain_env), (Options "/a.lit" "out" "" "" true ""), fine, backwards.
  destruct forth_and_back as (H1 & H2 & H3). do 4 (split; [done|]).
  eexists _, _, _. split; [vm_compute; reflexivity|]. split; [vm_compute; reflexivity|]. done.
Qed.
Print Assumptions repro_index_refuted.

(** Nor is the order in which an error lists the definitions of an ambiguous tag. *)
Theorem repro_error_refuted : ∃ E o W W' e e', but_order W W' ∧ orders (w_order W) ∧ orders (w_order W') ∧ o_path o = "" ∧
  snd (build E W o 20 20 []) = Err (FWrite e) ∧ snd (build E W' o 20 20 []) = Err (FWrite e') ∧ e ≠ e'.
Proof.
  exists (reading (partial_book "x" "x" "\reference{x}") plain_env), (Options "/a.lit" "out" "" "" true ""), fine, backwards.
  destruct forth_and_back as (H1 & H2 & H3). eexists _, _. do 4 (split; [done|]).
  split; [vm_compute; reflexivity|]. split; [vm_compute; reflexivity|]. done.
Qed.
Print Assumptions repro_error_refuted.
