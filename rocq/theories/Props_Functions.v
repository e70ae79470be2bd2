(** Theorems about functions of the base plugin: C46, C51. *)
From Coq Require Import Ascii String.
From stdpp Require Import base tactics relations strings list.
From Verif Require Import GoBase Ast Content ContentSpec ContentProofs Section StrProofs TreeSpec TreeProofs TagProofs QueryProofs
  Evaluate EvalProofs EvalFrame EvalInv BaseInv EvalSpec EvalTheory EvalFail EvalOnce EvalText EvalMore EvalLoc DemoDoc.
Local Open Scope string_scope.
Local Open Scope list_scope.

Definition start : st := St [set_factories (new_section None "/f") [FBase]] [].

(** ** C46 *)

Definition is_list (c : content) (items : list content) : Prop := ∃ ordered, c = CList items ordered.

Lemma table_rows_ok rows : ∀ acc c, table_rows rows acc = inl c ↔ ∃ rs, Forall2 is_list rows rs ∧ c = CTable (acc ++ rs).
Proof.
  induction rows as [|row rows IH]; intros acc c; simpl.
  - split.
    + intros [= <-]. exists []. by rewrite (right_id_L [] (++)).
    + intros (rs & F & ->). inversion F; subst. by rewrite (right_id_L [] (++)).
  - destruct (as_list row) as [items|] eqn:Hrow.
    + assert (is_list row items) as Hl by (destruct row; try done; injection Hrow as <-; by eexists).
      rewrite IH. split.
      * intros (rs & F & ->). exists (items :: rs). split; [by constructor|]. by rewrite <- (assoc_L (++)).
      * intros (rs & F & ->). inversion F as [|? items' ? rs' Hl' F']; subst. exists rs'. split; [done|].
        destruct Hl as [o ->]. destruct Hl' as [o' [= <- _]]. by rewrite <- (assoc_L (++)).
    + split; [done|]. intros (rs & F & ->). inversion F as [|? items' ? rs' [o ->] F']; subst. done.
Qed.
Lemma table_rows_err rows : ∀ acc e, table_rows rows acc = inr e ↔
  ∃ a row b, rows = a ++ row :: b ∧ Forall (λ r, ∃ i, is_list r i) a ∧ (∀ i, ¬ is_list row i) ∧ e = ETableRow row.
Proof.
  induction rows as [|row rows IH]; intros acc e; simpl.
  - split; [done|]. intros (a & r & b & H & _). by destruct a.
  - destruct (as_list row) as [items|] eqn:Hrow.
    + assert (is_list row items) as Hl by (destruct row; try done; injection Hrow as <-; by eexists).
      rewrite IH. split.
      * intros (a & r & b & -> & F & Hn & ->). exists (row :: a), r, b. split; [done|]. split; [|done]. constructor; eauto.
      * intros (a & r & b & H & F & Hn & ->). destruct a as [|y a]; simpl in H; injection H as -> ->.
        -- exfalso. by eapply Hn.
        -- apply Forall_cons in F as [_ F]. eauto 10.
    + assert (∀ i, ¬ is_list row i) as Hn by (intros i [o ->]; done). split.
      * intros [= <-]. exists [], row, rows. done.
      * intros (a & r & b & H & F & Hn' & ->). destruct a as [|y a]; simpl in H; injection H as -> ->; [done|].
        apply Forall_cons in F as [[i Hi] _]. exfalso. by eapply Hn.
Qed.

(** [\table] succeeds exactly if all its arguments are lists, which then are its
    rows; otherwise the error is about the first that is not. *)
Theorem table_needs_lists : ∀ E rec self rows s,
  (∀ t, run_prog E rec self (m_body m_table self (map (λ c, ACon (Some c)) rows)) s =
      (s, Ok [RCon (Some t); RErr None]) ↔ ∃ rs, Forall2 is_list rows rs ∧ t = CTable rs) ∧
  (∀ e, run_prog E rec self (m_body m_table self (map (λ c, ACon (Some c)) rows)) s =
      (s, Ok [RCon None; RErr (Some e)]) ↔
    ∃ a row b, rows = a ++ row :: b ∧ Forall (λ r, ∃ i, is_list r i) a ∧ (∀ i, ¬ is_list row i) ∧ e = ETableRow row).
Proof.
  intros E rec self rows s. simpl. rewrite con_args_map. unfold ret_con_err.
  pose proof (table_rows_ok rows []) as H1. pose proof (table_rows_err rows []) as H2.
  destruct (table_rows rows []) as [c|e']; simpl; unfold mret; split; intros x; rewrite <- ?H1, <- ?H2; split; congruence.
Qed.
Print Assumptions table_needs_lists.

Definition is_pair (c : content) (p : content * content) : Prop := is_list c [fst p; snd p].

Lemma def_items_ok items : ∀ acc c, def_items items acc = inl c ↔ ∃ ps, Forall2 is_pair items ps ∧ c = CDefs (acc ++ ps).
Proof.
  induction items as [|item items IH]; intros acc c; simpl.
  - split.
    + intros [= <-]. exists []. by rewrite (right_id_L [] (++)).
    + intros (rs & F & ->). inversion F; subst. by rewrite (right_id_L [] (++)).
  - destruct (as_list item) as [its|] eqn:Hrow.
    + assert (is_list item its) as [o ->] by (destruct item; try done; injection Hrow as <-; by eexists).
      destruct its as [|a [|b [|? its]]].
      1,2,4: split; [done|]; intros (rs & F & ->); inversion F as [|? p ? rs' [o' Hp] F']; subst; done.
      rewrite IH. split.
      * intros (rs & F & ->). exists ((a, b) :: rs). split; [constructor; [by exists o|done]|]. by rewrite <- (assoc_L (++)).
      * intros (rs & F & ->). inversion F as [|? [a' b'] ? rs' Hl' F']; subst. exists rs'. split; [done|].
        destruct Hl' as [o' [= <- <- _]]. by rewrite <- (assoc_L (++)).
    + split; [done|]. intros (rs & F & ->). inversion F as [|? items' ? rs' [o ->] F']; subst. done.
Qed.

(** [\definitions] succeeds exactly if all its arguments are lists of two, which it
    pairs up in order. *)
Theorem definitions_need_pairs : ∀ E rec self items s t,
  run_prog E rec self (m_body m_definitions self (map (λ c, ACon (Some c)) items)) s =
      (s, Ok [RCon (Some t); RErr None]) ↔ ∃ ps, Forall2 is_pair items ps ∧ t = CDefs ps.
Proof.
  intros E rec self items s t. simpl. rewrite con_args_map. unfold ret_con_err. rewrite <- (def_items_ok items []).
  destruct (def_items items []) as [c|e']; simpl; unfold mret; split; congruence.
Qed.
Print Assumptions definitions_need_pairs.

(** In a document: a [\table] that evaluates does so to a table whose rows are the
    lists its arguments evaluated to. *)
Theorem table_in_document : ∀ E n self acc args l s s' r x, st_heap s !! self = Some x →
  dispatches E "Table" (s_factories x) m_table →
  eval E n self acc (NInvoke "table" args l) s = (s', Ok r) →
  ∃ rows rs, yields_args E self (runs E self) (touch self l s) m_table 0 args s' (map (λ c, ACon (Some c)) rows) ∧
    Forall2 is_list rows rs ∧ r = go_append acc [Some (CTable rs)].
Proof.
  intros E n self acc args l s s' r x Hx Hd H. apply eval_sound in H as (cs & Y & ->).
  destruct (yields_invoke_inv E self _ _ _ _ _ _ x m_table Y Hx Hd) as (_ & s1 & argv & rets & Ya & Hz & [k Hb] & Hr).
  pose proof Ya as Yb. eapply args_con_rest in Yb as (rows & ->); [|simpl; lia|done|done].
  destruct (table_needs_lists E (eval E k) self rows s1) as [HT _].
  simpl in Hb, HT. rewrite con_args_map in Hb, HT.
  destruct (table_rows rows []) as [t|e] eqn:Ht; simpl in Hb, HT; injection Hb as <- <-.
  - destruct (proj1 (HT t) eq_refl) as (rs & F & ->). exists rows, rs. split; [done|]. split; [done|]. inversion Hr; subst. done.
  - inversion Hr.
Qed.
Print Assumptions table_in_document.

Example table_example :
  let row a b := CList [CString a; CString b] false in
  Forall2 is_list [row "a" "b"; row "c" "d"] [[CString "a"; CString "b"]; [CString "c"; CString "d"]] ∧
  Forall2 is_pair [row "a" "b"] [(CString "a", CString "b")] ∧
  dispatches demo_env "Table" [FBase] m_table ∧
  snd (eval demo_env 5 0 None (call 1 "table" [call 2 "table-row" [txt "a"; txt "b"]; call 3 "list" [txt "c"]]) start) =
    Ok (Some (CTable [[CString "a"; CString "b"]; [CString "c"]])).
Proof.
  split; [repeat constructor; by eexists|]. split; [repeat constructor; by eexists|]. split; [by apply dispatches_here|].
  vm_compute. reflexivity.
Qed.

(** ** C51 *)

(** The location a [\reference] records is that of its own invocation or of an
    invocation nested in its arguments. *)
Theorem reference_location : ∀ E n self acc args l s s' r x, wf (st_heap s) → st_heap s !! self = Some x →
  dispatches E "Reference" (s_factories x) m_reference →
  eval E n self acc (NInvoke "reference" args l) s = (s', Ok r) →
  ∃ tag c l', r = go_append acc [Some (CRef self tag c false l')] ∧ (l' = l ∨ l' ∈ flat_map locs args).
Proof.
  intros E n self acc args l s s' r x Hw Hx Hd H. apply eval_sound in H as (cs & Y & ->).
  destruct (yields_invoke_inv E self _ _ _ _ _ _ x m_reference Y Hx Hd) as (Ha & s1 & argv & rets & Ya & Hz & [k Hb] & Hr).
  destruct (invoke_loc E self s x l _ _ _ _ Hw Hx Ya) as (x1 & Hx1 & Hl).
  destruct args as [|nd args]; [unfold accepts in Ha; simpl in Ha; lia|].
  inversion Ya as [|? ? ? ty ? ? s0 v ? vs P Yv Yr]; subst. apply not_elem_of_cons in Hz as [_ Hz].
  eapply args_con_rest in Yr as (ds & ->); [|simpl; lia|done|done].
  assert (ty = TStr) as -> by (eapply param_fun; [exact P|]; by left). inversion Yv; subst.
  simpl in Hb. rewrite con_args_map in Hb. unfold getself in Hb. simpl in Hb. unfold mbind, mheap in Hb. rewrite Hx1 in Hb.
  simpl in Hb. injection Hb as <- <-. inversion Hr; subst. eauto 10.
Qed.
Print Assumptions reference_location.

Theorem target_location : ∀ E n self acc args l s s' r x, wf (st_heap s) → st_heap s !! self = Some x →
  dispatches E "Target" (s_factories x) m_target →
  eval E n self acc (NInvoke "target" args l) s = (s', Ok r) →
  ∃ tag title c l', r = go_append acc [Some (CTarget tag l' title c)] ∧ (l' = l ∨ l' ∈ flat_map locs args).
Proof.
  intros E n self acc args l s s' r x Hw Hx Hd H. apply eval_sound in H as (cs & Y & ->).
  destruct (yields_invoke_inv E self _ _ _ _ _ _ x m_target Y Hx Hd) as (Ha & s1 & argv & rets & Ya & Hz & [k Hb] & Hr).
  destruct (invoke_loc E self s x l _ _ _ _ Hw Hx Ya) as (x1 & Hx1 & Hl).
  destruct args as [|nd args]; [unfold accepts in Ha; simpl in Ha; lia|].
  inversion Ya as [|? ? ? ty ? ? s0 v ? vs P Yv Yr]; subst. apply not_elem_of_cons in Hz as [_ Hz].
  eapply args_con_rest in Yr as (ds & ->); [|simpl; lia|done|done].
  assert (ty = TStr) as -> by (eapply param_fun; [exact P|]; by left). inversion Yv; subst.
  simpl in Hb. rewrite con_args_map in Hb. unfold getself in Hb. simpl in Hb. unfold mbind, mheap in Hb. rewrite Hx1 in Hb.
  destruct ds as [|d1 [|d2 [|d3 ds]]]; simpl in Hb; injection Hb as <- <-; inversion Hr; subst; eauto 10.
Qed.
Print Assumptions target_location.

Theorem title_location : ∀ E n self acc args l s s' r x, wf (st_heap s) → st_heap s !! self = Some x →
  dispatches E "Title" (s_factories x) m_title →
  eval E n self acc (NInvoke "title" args l) s = (s', Ok r) →
  ∃ x', st_heap s' !! self = Some x' ∧ (s_titleloc x' = l ∨ s_titleloc x' ∈ flat_map locs args).
Proof.
  intros E n self acc args l s s' r x Hw Hx Hd H. apply eval_sound in H as (cs & Y & ->).
  destruct (yields_invoke_inv E self _ _ _ _ _ _ x m_title Y Hx Hd) as (Ha & s1 & argv & rets & Ya & Hz & [k Hb] & Hr).
  destruct (invoke_loc E self s x l _ _ _ _ Hw Hx Ya) as (x1 & Hx1 & Hl).
  destruct args as [|nd args]; [unfold accepts in Ha; simpl in Ha; lia|].
  destruct (title_args _ _ _ _ _ _ _ Ya Hz) as (t & tags & ->).
  simpl in Hb. rewrite str_args_map in Hb. unfold getself, getpath in Hb. simpl in Hb. unfold mbind at 1, mheap in Hb. rewrite Hx1 in Hb.
  destruct (is_empty (s_title x1)).
  - simpl in Hb. unfold mbind, mheap, mlift in Hb. destruct (title_tags _ _ _ _ _ _) as [ts|e| |]; try done.
    simpl in Hb. injection Hb as <- <-. simpl.
    eexists. split; [by apply upd_lookup_eq|].
    destruct (set_title_rest self t (s_invloc x1) ts x1) as (_ & _ & _ & _ & _ & _ & _ & _ & _ & _ & _ & _ & _ & _ & ->). done.
  - simpl in Hb. unfold mbind, mheap in Hb. destruct (file_path _ _); [|done]. injection Hb as <- <-. inversion Hr.
Qed.
Print Assumptions title_location.

(** So it is its own location if no invocation is nested in its arguments. *)
Theorem own_location_partial : ∀ E n self acc args l s s' r x, wf (st_heap s) → st_heap s !! self = Some x →
  flat_map locs args = [] →
  (dispatches E "Reference" (s_factories x) m_reference →
   eval E n self acc (NInvoke "reference" args l) s = (s', Ok r) →
   ∃ tag c, r = go_append acc [Some (CRef self tag c false l)]) ∧
  (dispatches E "Target" (s_factories x) m_target →
   eval E n self acc (NInvoke "target" args l) s = (s', Ok r) →
   ∃ tag title c, r = go_append acc [Some (CTarget tag l title c)]) ∧
  (dispatches E "Title" (s_factories x) m_title →
   eval E n self acc (NInvoke "title" args l) s = (s', Ok r) →
   ∃ x', st_heap s' !! self = Some x' ∧ s_titleloc x' = l).
Proof.
  intros E n self acc args l s s' r x Hw Hx Hn. split_and!; intros Hd He.
  - destruct (reference_location _ _ _ _ _ _ _ _ _ _ Hw Hx Hd He) as (tag & c & l' & -> & [->|Hl]); [eauto|].
    rewrite Hn in Hl. by apply elem_of_nil in Hl.
  - destruct (target_location _ _ _ _ _ _ _ _ _ _ Hw Hx Hd He) as (tag & t & c & l' & -> & [->|Hl]); [eauto|].
    rewrite Hn in Hl. by apply elem_of_nil in Hl.
  - destruct (title_location _ _ _ _ _ _ _ _ _ _ Hw Hx Hd He) as (x' & Hx' & [Hl|Hl]); [eauto|].
    rewrite Hn in Hl. by apply elem_of_nil in Hl.
Qed.
Print Assumptions own_location_partial.

(** With the base plugin only, exactly: the location of the last invocation in the
    arguments ([\section]'s argument is not looked at), or else its own. *)
Theorem reference_location_exact : ∀ E n self acc args l s s' r, base_only E → wf (st_heap s) → valid (st_heap s) self →
  eval E n self acc (NInvoke "reference" args l) s = (s', Ok r) →
  ∃ tag c, r = go_append acc [Some (CRef self tag c false (fold_left last_loc args l))].
Proof.
  intros E n self acc args l s s' r Hb Hw Hv H. apply eval_sound in H as (cs & Y & ->).
  destruct (lookup_lt_is_Some_2 _ _ Hv) as [x Hx].
  inversion Y as [| | | |? ? ? ? x0 m s1 argv ? rets ? Hx0 Hd Ha Ya Hz [k Hr] Hret]; subst. simplify_eq.
  apply (base_dispatch E) in Hd; [|done]. change (base_method "Reference" = Some m) in Hd. assert (m = m_reference) as -> by (vm_compute in Hd; by injection Hd as <-).
  destruct (invoke_last E self Hb s x l _ _ _ _ "Reference" Hw Hx Hd ltac:(done) Ya) as (x1 & Hx1 & Hl).
  destruct args as [|nd args]; [unfold accepts in Ha; simpl in Ha; lia|].
  inversion Ya as [|? ? ? ty ? ? s0 v ? vs P Yv Yr]; subst. apply not_elem_of_cons in Hz as [_ Hz].
  eapply args_con_rest in Yr as (ds & ->); [|simpl; lia|done|done].
  assert (ty = TStr) as -> by (eapply param_fun; [exact P|]; by left). inversion Yv; subst.
  simpl in Hr. rewrite con_args_map in Hr. unfold getself in Hr. simpl in Hr. unfold mbind, mheap in Hr. rewrite Hx1 in Hr.
  simpl in Hr. injection Hr as <- <-. inversion Hret; subst. rewrite Hl. eauto 10.
Qed.
Print Assumptions reference_location_exact.

Theorem target_location_exact : ∀ E n self acc args l s s' r, base_only E → wf (st_heap s) → valid (st_heap s) self →
  eval E n self acc (NInvoke "target" args l) s = (s', Ok r) →
  ∃ tag title c, r = go_append acc [Some (CTarget tag (fold_left last_loc args l) title c)].
Proof.
  intros E n self acc args l s s' r Hb Hw Hv H. apply eval_sound in H as (cs & Y & ->).
  destruct (lookup_lt_is_Some_2 _ _ Hv) as [x Hx].
  inversion Y as [| | | |? ? ? ? x0 m s1 argv ? rets ? Hx0 Hd Ha Ya Hz [k Hr] Hret]; subst. simplify_eq.
  apply (base_dispatch E) in Hd; [|done]. change (base_method "Target" = Some m) in Hd. assert (m = m_target) as -> by (vm_compute in Hd; by injection Hd as <-).
  destruct (invoke_last E self Hb s x l _ _ _ _ "Target" Hw Hx Hd ltac:(done) Ya) as (x1 & Hx1 & Hl).
  destruct args as [|nd args]; [unfold accepts in Ha; simpl in Ha; lia|].
  inversion Ya as [|? ? ? ty ? ? s0 v ? vs P Yv Yr]; subst. apply not_elem_of_cons in Hz as [_ Hz].
  eapply args_con_rest in Yr as (ds & ->); [|simpl; lia|done|done].
  assert (ty = TStr) as -> by (eapply param_fun; [exact P|]; by left). inversion Yv; subst.
  simpl in Hr. rewrite con_args_map in Hr. unfold getself in Hr. simpl in Hr. unfold mbind, mheap in Hr. rewrite Hx1 in Hr.
  destruct ds as [|d1 [|d2 [|d3 ds]]]; simpl in Hr; injection Hr as <- <-; inversion Hret; subst; rewrite Hl; eauto 10.
Qed.
Print Assumptions target_location_exact.

Theorem title_location_exact : ∀ E n self acc args l s s' r, base_only E → wf (st_heap s) → valid (st_heap s) self →
  eval E n self acc (NInvoke "title" args l) s = (s', Ok r) →
  ∃ x', st_heap s' !! self = Some x' ∧ s_titleloc x' = fold_left last_loc args l.
Proof.
  intros E n self acc args l s s' r Hb Hw Hv H. apply eval_sound in H as (cs & Y & ->).
  destruct (lookup_lt_is_Some_2 _ _ Hv) as [x Hx].
  inversion Y as [| | | |? ? ? ? x0 m s1 argv ? rets ? Hx0 Hd Ha Ya Hz [k Hr] Hret]; subst. simplify_eq.
  apply (base_dispatch E) in Hd; [|done]. change (base_method "Title" = Some m) in Hd. assert (m = m_title) as -> by (vm_compute in Hd; by injection Hd as <-).
  destruct (invoke_last E self Hb s x l _ _ _ _ "Title" Hw Hx Hd ltac:(done) Ya) as (x1 & Hx1 & Hl).
  destruct args as [|nd args]; [unfold accepts in Ha; simpl in Ha; lia|].
  destruct (title_args _ _ _ _ _ _ _ Ya Hz) as (t & tags & ->).
  simpl in Hr. rewrite str_args_map in Hr. unfold getself, getpath in Hr. simpl in Hr. unfold mbind at 1, mheap in Hr. rewrite Hx1 in Hr.
  destruct (is_empty (s_title x1)).
  - simpl in Hr. unfold mbind, mheap, mlift in Hr. destruct (title_tags _ _ _ _ _ _) as [ts|e| |]; try done.
    simpl in Hr. injection Hr as <- <-. simpl.
    eexists. split; [by apply upd_lookup_eq|].
    destruct (set_title_rest self t (s_invloc x1) ts x1) as (_ & _ & _ & _ & _ & _ & _ & _ & _ & _ & _ & _ & _ & _ & ->). done.
  - simpl in Hr. unfold mbind, mheap in Hr. destruct (file_path _ _); [|done]. injection Hr as <- <-. inversion Hret.
Qed.
Print Assumptions title_location_exact.

Example exact_location_example :
  snd (eval demo_env 5 0 None (call 7 "reference" [txt "a"; NSeq [call 8 "bold" [call 9 "italic" [txt "x"]]; txt "b"; call 10 "code" [txt "y"]; txt "z"]]) start) =
    Ok (Some (CRef 0 "a" (Some (CSeq [CStyled "bold" false (CStyled "italic" false (CString "x") []) []; CString "b";
                                      CStyled "verbatim" false (CString "y") []; CString "z"])) false (Loc 10 1 100))) ∧
  fold_left last_loc [txt "a"; NSeq [call 8 "bold" [call 9 "italic" [txt "x"]]; txt "b"; call 10 "code" [txt "y"]; txt "z"]] (Loc 7 1 70) = Loc 10 1 100.
Proof. split; vm_compute; reflexivity. Qed.

(** In general it is not: [\reference{a}{\bold{b}}] records where [\bold] is. *)
Theorem own_location_refuted :
  ∃ nd l l' s', nd = NInvoke "reference" [NString "a"; NInvoke "bold" [NString "b"] l'] l ∧ l ≠ l' ∧
    eval demo_env 5 0 None nd start =
      (s', Ok (Some (CRef 0 "a" (Some (CStyled "bold" false (CString "b") [])) false l'))).
Proof.
  exists (NInvoke "reference" [NString "a"; NInvoke "bold" [NString "b"] (Loc 1 15 14)] (Loc 1 1 0)), (Loc 1 1 0), (Loc 1 15 14).
  eexists. split; [done|]. split; [done|]. vm_compute. reflexivity.
Qed.
Print Assumptions own_location_refuted.

Example location_example : dispatches demo_env "Reference" [FBase] m_reference ∧ dispatches demo_env "Title" [FBase] m_title ∧
  dispatches demo_env "Target" [FBase] m_target ∧ flat_map locs [txt "a"; NSeq [txt "b"; NPara [[txt "c"]]]] = [] ∧
  snd (eval demo_env 5 0 None (call 7 "reference" [txt "a"; NSeq [txt "b"; NPara [[txt "c"]]]]) start) =
    Ok (Some (CRef 0 "a" (Some (CSeq [CString "b"; CPara [CString "c"]])) false (Loc 7 1 70))).
Proof. repeat (split; [by apply dispatches_here|]). split; [done|]. vm_compute. reflexivity. Qed.
