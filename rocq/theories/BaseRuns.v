(** The functions of the base plugin do what BaseSpec.v says. *)
From Coq Require Import Ascii String.
From stdpp Require Import base tactics relations strings list.
From Verif Require Import GoBase Ast Content ContentSpec ContentProofs Section StrProofs TreeSpec TreeProofs TagProofs QueryProofs
  Evaluate EvalProofs EvalFrame EvalInv BaseInv EvalSpec EvalTheory EvalFail EvalOnce EvalText EvalMore EvalLoc WriterProofs BaseSpec.
Local Open Scope string_scope.
Local Open Scope list_scope.

Definition kind (ty : argty) (v : argval) : Prop :=
  match ty with
  | TStr => ∃ t, v = AStr t
  | TCon => ∃ c, v = con c
  | TNode => ∃ nd, v = ANode nd
  | TOther _ => False
  end.

(** Values of the declared types. *)
Definition suits (m : method) (argv : list argval) : Prop :=
  ∃ a b, argv = a ++ b ∧ Forall2 kind (m_in m) a ∧
    match m_variadic m with None => b = [] | Some ty => Forall (kind ty) b end.

Lemma arg_kind E self s ty nd s' v : yields_arg E self (runs E self) s ty nd s' v → v ≠ ACon None → kind ty v.
Proof.
  inversion 1 as [? ? ? ? c t|? ? ? cs|]; subst; simpl; eauto. intros Hn. destruct (joined cs) as [c|]; [|done]. by exists c.
Qed.
Lemma args_kinds E self s m i args s1 argv : yields_args E self (runs E self) s m i args s1 argv → ACon None ∉ argv →
  length argv = length args ∧ ∀ k v, argv !! k = Some v → ∃ ty, param m (i + k) ty ∧ kind ty v.
Proof.
  induction 1 as [|s m i ty nd args s1 v s2 vs P Y HY IH]; intros Hz; [done|].
  apply not_elem_of_cons in Hz as [Hv Hz]. destruct (IH Hz) as [Hl Hk]. split; [simpl; by f_equal|].
  intros [|k] w Hw.
  - injection Hw as <-. exists ty. rewrite Nat.add_0_r. split; [done|]. by eapply arg_kind.
  - destruct (Hk k w Hw) as (ty' & P' & Hk'). exists ty'. by rewrite Nat.add_succ_r.
Qed.
Lemma args_suit E self s m args s1 argv : yields_args E self (runs E self) s m 0 args s1 argv → ACon None ∉ argv →
  accepts m (length args) → suits m argv.
Proof.
  intros Y Hz Ha. destruct (args_kinds _ _ _ _ _ _ _ _ Y Hz) as [Hl Hk]. rewrite <- Hl in Ha. clear Y Hl args.
  assert (length (m_in m) ≤ length argv) as Hle by (unfold accepts in Ha; destruct (m_variadic m); lia).
  exists (take (length (m_in m)) argv), (drop (length (m_in m)) argv). split; [by rewrite take_drop|]. split.
  - apply Forall2_same_length_lookup. split; [rewrite take_length; lia|].
    intros k ty v Ht Hv. apply lookup_take_Some in Hv as [Hv _].
    destruct (Hk k v Hv) as (ty' & P & H). by rewrite (param_fun m k ty ty'); [|left|].
  - unfold accepts in Ha. destruct (m_variadic m) as [ty|] eqn:Hm.
    + apply Forall_lookup. intros k v Hv. rewrite lookup_drop in Hv. destruct (Hk _ v Hv) as (ty' & P & H).
      rewrite (param_fun m (length (m_in m) + k) ty ty'); [done| |done]. right. split; [lia|done].
    + rewrite drop_ge by lia. done.
Qed.

Lemma kinds_str b : Forall (kind TStr) b → ∃ ss, b = map AStr ss.
Proof.
  induction 1 as [|v b [t ->] _ (ss & ->)]; [by exists []|]. by exists (t :: ss).
Qed.
Lemma kinds_con b : Forall (kind TCon) b → ∃ cs, b = map con cs.
Proof.
  induction 1 as [|v b [c ->] _ (cs & ->)]; [by exists []|]. by exists (c :: cs).
Qed.
Lemma con_args_con cs : con_args (map con cs) = Some cs.
Proof. exact (con_args_map cs). Qed.

(** ** Tables and definitions *)

Definition a_list (c : content) (items : list content) : Prop := ∃ o, c = CList items o.
Lemma as_list_some c items : as_list c = Some items ↔ a_list c items.
Proof. split; [destruct c; try done; intros [= <-]; by eexists|by intros [o ->]]. Qed.
Lemma as_list_none c : as_list c = None → ∀ items o, c ≠ CList items o.
Proof. by intros H items o ->. Qed.

Lemma rows_result rows : ∀ acc, match table_rows rows acc with
  | inl t => ∃ rs, Forall2 a_list rows rs ∧ t = CTable (acc ++ rs)
  | inr e => ∃ a row b, rows = a ++ row :: b ∧ Forall (λ r, ∃ items o, r = CList items o) a ∧
      (∀ items o, row ≠ CList items o) ∧ e = ETableRow row
  end.
Proof.
  induction rows as [|row rows IH]; intros acc; simpl.
  - exists []. by rewrite (right_id_L [] (++)).
  - destruct (as_list row) as [items|] eqn:Hr.
    + apply as_list_some in Hr as [o ->]. specialize (IH (acc ++ [items])). destruct (table_rows rows _) as [t|e].
      * destruct IH as (rs & F & ->). exists (items :: rs). split; [constructor; [by exists o|done]|]. by rewrite <- (assoc_L (++)).
      * destruct IH as (a & r & b & -> & F & Hn & ->). exists (CList items o :: a), r, b. split; [done|]. split; [|done].
        constructor; [by eexists _, _|done].
    + exists [], row, rows. split; [done|]. split; [done|]. split; [by apply as_list_none|done].
Qed.
Lemma items_result items : ∀ acc, match def_items items acc with
  | inl t => ∃ ps, Forall2 (λ i p, ∃ o, i = CList [fst p; snd p] o) items ps ∧ t = CDefs (acc ++ ps)
  | inr e => ∃ a item b, items = a ++ item :: b ∧ Forall (λ r, ∃ x y o, r = CList [x; y] o) a ∧
      ((∀ its o, item ≠ CList its o) ∧ e = EDefNotList item ∨
       ∃ its o, item = CList its o ∧ length its ≠ 2 ∧ e = EDefNotTwo item)
  end.
Proof.
  induction items as [|item items IH]; intros acc; simpl.
  - exists []. by rewrite (right_id_L [] (++)).
  - destruct (as_list item) as [its|] eqn:Hr.
    + apply as_list_some in Hr as [o ->]. destruct its as [|x [|y [|z its]]].
      1,2,4: eexists [], _, items; split; [done|]; split; [done|]; right; eexists _, o; split; [done|]; split; [simpl; lia|done].
      specialize (IH (acc ++ [(x, y)])). destruct (def_items items _) as [t|e].
      * destruct IH as (ps & F & ->). exists ((x, y) :: ps). split; [constructor; [by exists o|done]|]. by rewrite <- (assoc_L (++)).
      * destruct IH as (a & r & b & -> & F & Hn). exists (CList [x; y] o :: a), r, b. split; [done|]. split; [|done].
        constructor; [by eexists _, _, _|done].
    + exists [], item, items. split; [done|]. split; [done|]. left. split; [by apply as_list_none|done].
Qed.

(** ** Assignments *)

Lemma upd_insert h i f x : h !! i = Some x → upd h i f = <[i := f x]> h.
Proof.
  intros Hx. apply list_eq. intros j. rewrite upd_lookup. destruct (decide (i = j)) as [->|Hn].
  - rewrite Hx. rewrite list_lookup_insert; [done|]. by eapply lookup_lt_Some.
  - by rewrite list_lookup_insert_ne.
Qed.

Lemma change_by self fields (P : section → section → Prop) s f x : st_heap s !! self = Some x → (∀ k, k ∉ fields → same k x (f x)) → P x (f x) →
  changes self fields P s (St (upd (st_heap s) self f) (st_cache s)).
Proof. intros Hx Hs HP. exists x, (f x). split; [done|]. split; [by apply upd_insert|]. done. Qed.

Ltac fields := intros []; simpl; try reflexivity; intros Hk; exfalso; apply Hk; set_solver.

Lemma title_fields self title l names x : let y := set_title self title l names x in
  s_tags y = map (λ n, Tag n (Some title) (Some self) "" None l) names ∧ s_primary y = hd tag0 (s_tags y).
Proof.
  unfold set_title. simpl. split; [|done].
  assert (∀ y, s_tags (fold_left (λ s name, set_tag self name (Some title) l [] s) names y) =
    s_tags y ++ map (λ n, Tag n (Some title) (Some self) "" None l) names) as Hgo.
  { induction names as [|n names IH]; intros y; simpl; [by rewrite (right_id_L [] (++))|].
    rewrite IH. simpl. by rewrite <- (assoc_L (++)). }
  by rewrite Hgo.
Qed.

Lemma empty_iff c : is_empty c = true ↔ c = CString "".
Proof. split; [destruct c as [[]| | | | | | | | | | | | | | |]; done|by intros ->]. Qed.

(** The tags of a title, as computed. *)
Lemma tags_result E h title given : match title_tags (e_similar E) (e_broken E) h (e_jumps E) title given with
  | Ok names => tags_of E h title given names ∧ names ≠ []
  | _ => given = [] ∧ ¬ ∃ t text, strip_aux title = Some t ∧ str E h t = Ok text
  end.
Proof.
  unfold title_tags, tags_of, default_tag. destruct given as [|g given]; [|done].
  destruct (strip_aux title) as [t|]; simpl; [|split; [done|]; by intros (t & ? & ? & ?)].
  change (cstring (e_similar E) (e_broken E) h (e_jumps E) t) with (str E h t).
  destruct (str E h t) as [text|e| |] eqn:Ht; simpl.
  - split; [|done]. eexists _, _. done.
  - split; [done|]. intros (? & ? & [= ->] & ?). congruence.
  - split; [done|]. intros (? & ? & [= ->] & ?). congruence.
  - split; [done|]. intros (? & ? & [= ->] & ?). congruence.
Qed.

(** ** One call *)

(** What running [fn] with these arguments comes to. *)
Inductive comes (E : env) (self : nat) (fn : string) (argv : list argval) (s : st) : st → outcome error (list retval) → Prop :=
| comes_makes x c rets : st_heap s !! self = Some x → makes self (s_invloc x) fn argv c →
    rets = [RCon (Some c)] ∨ rets = [RCon (Some c); RErr None] → comes E self fn argv s s (Ok rets)
| comes_sets s' rets : sets E self fn argv s s' → rets = [] ∨ rets = [RErr None] → comes E self fn argv s s' (Ok rets)
| comes_rejects e rets : rejects E self fn argv s e → rets = [RErr (Some e)] ∨ rets = [RCon None; RErr (Some e)] →
    comes E self fn argv s s (Ok rets)
| comes_untitled title s' o : fn = "title" → argv = [con title] →
    (¬ ∃ t text, strip_aux title = Some t ∧ str E (st_heap s) t = Ok text) → (∀ rets, o ≠ Ok rets) →
    comes E self fn argv s s' o.

Lemma fixed1 t v : (∃ a b, v = a ++ b ∧ Forall2 kind [t] a ∧ b = []) → ∃ x, v = [x] ∧ kind t x.
Proof.
  intros (a & b & -> & F & ->). inversion F as [|? x ? a' Hx F']; subst. inversion F'; subst. eauto.
Qed.

Lemma runs_styled E rec self fn style x argv s : (fn, style) ∈ style_of → st_heap s !! self = Some x →
  suits (styled_method style) argv →
  comes E self fn argv s (fst (run_prog E rec self (m_body (styled_method style) self argv) s))
    (snd (run_prog E rec self (m_body (styled_method style) self argv) s)).
Proof.
  intros Hfn Hx (a & b & -> & F & Hb). simpl in F, Hb. subst b. inversion F as [|? v ? a' Hk F']; subst; destruct Hk as [c ->]. inversion F'; subst.
  simpl. unfold con. eapply comes_makes; [done| |by left]. by apply makes_styled.
Qed.

Ltac is_method meth :=
  match goal with
  | Hm : base_method _ = Some ?m, Hs : suits ?m _ |- _ =>
    change (Some meth = Some m) in Hm; injection Hm as <-;
    destruct Hs as (a & b & Hab & F & Hb); simpl in F, Hb;
    match type of Hab with ?v = _ => subst v end
  end.

Lemma base_comes E rec self fn m x argv s : wf (st_heap s) → st_heap s !! self = Some x →
  fn ∈ simple_functions → base_method (method_name fn) = Some m → suits m argv →
  comes E self fn argv s (fst (run_prog E rec self (m_body m self argv) s)) (snd (run_prog E rec self (m_body m self argv) s)).
Proof.
  intros Hw Hx Hfn Hm Hs. assert (valid (st_heap s) self) as Hv by by eapply lookup_lt_Some.
  unfold simple_functions in Hfn. apply elem_of_app in Hfn as [Hfn|Hfn].
  { simpl in Hfn.
    repeat (apply elem_of_cons in Hfn as [->|Hfn];
      [vm_compute in Hm; injection Hm as <-; eapply runs_styled; [|exact Hx|exact Hs]; unfold style_of; set_solver|]).
    by apply elem_of_nil in Hfn. }
  repeat (apply elem_of_cons in Hfn as [->|Hfn]; [|]); [..|by apply elem_of_nil in Hfn].
  - is_method (list_method false). (* list *) apply Forall2_nil_inv_l in F as ->. apply kinds_con in Hb as (cs & ->). simpl. rewrite con_args_con. simpl.
    eapply comes_makes; [done|constructor|by left].
  - is_method (list_method true). apply Forall2_nil_inv_l in F as ->. apply kinds_con in Hb as (cs & ->). simpl. rewrite con_args_con. simpl.
    eapply comes_makes; [done|constructor|by left].
  - is_method (list_method false). apply Forall2_nil_inv_l in F as ->. apply kinds_con in Hb as (cs & ->). simpl. rewrite con_args_con. simpl.
    eapply comes_makes; [done|constructor|by left].
  - is_method (m_definition). (* definition *) subst b. inversion F as [|? v ? a' Hk F']; subst; destruct Hk as [c ->]. inversion F' as [|? v ? a'' Hk F'']; subst; destruct Hk as [d ->]. inversion F''; subst.
    simpl. eapply comes_makes; [done|constructor|by left].
  - is_method (m_table). (* table *) apply Forall2_nil_inv_l in F as ->. apply kinds_con in Hb as (cs & ->). simpl. rewrite con_args_con.
    pose proof (rows_result cs []) as HR. destruct (table_rows cs []) as [t|e]; simpl.
    + destruct HR as (rs & F & ->). eapply comes_makes; [done|by constructor|by right].
    + destruct HR as (a & row & b & -> & F & Hn & ->). eapply comes_rejects; [by constructor|by right].
  - is_method (m_definitions). (* definitions *) apply Forall2_nil_inv_l in F as ->. apply kinds_con in Hb as (cs & ->). simpl. rewrite con_args_con.
    pose proof (items_result cs []) as HR. destruct (def_items cs []) as [t|e]; simpl.
    + destruct HR as (rs & F & ->). eapply comes_makes; [done|by constructor|by right].
    + destruct HR as (a & item & b & -> & F & [[Hn ->]|(its & o & -> & Hn & ->)]);
        (eapply comes_rejects; [by constructor|by right]).
  - is_method (m_link). (* link *) subst b. inversion F as [|? v ? a' Hk F']; subst; destruct Hk as [c ->]. inversion F' as [|? v ? a'' Hk F'']; subst; destruct Hk as [d ->]. inversion F''; subst.
    simpl. eapply comes_makes; [done|constructor|by left].
  - is_method (m_image). (* image *) inversion F as [|? v ? a' Hk F']; subst; destruct Hk as [p ->]. inversion F'; subst. apply kinds_str in Hb as (ss & ->). simpl.
    rewrite str_args_map. destruct ss as [|d more]; simpl; (eapply comes_makes; [done|constructor|by left]).
  - is_method (m_reference). (* reference *) inversion F as [|? v ? a' Hk F']; subst; destruct Hk as [p ->]. inversion F'; subst. apply kinds_con in Hb as (cs & ->). simpl.
    rewrite con_args_con. unfold getself. simpl. unfold mbind, mheap. rewrite Hx. simpl.
    destruct cs as [|c more]; simpl; (eapply comes_makes; [done|constructor|by left]).
  - is_method (m_target). (* target *) inversion F as [|? v ? a' Hk F']; subst; destruct Hk as [p ->]. inversion F'; subst. apply kinds_con in Hb as (cs & ->). simpl.
    rewrite con_args_con. unfold getself. simpl. unfold mbind, mheap. rewrite Hx. simpl.
    destruct cs as [|c [|d [|e more]]]; simpl; (eapply comes_makes; [done| |by left]); try constructor.
  - is_method (m_toc). (* table-of-contents *) subst b. inversion F; subst. simpl. eapply comes_makes; [done|constructor|by left].
  - is_method (m_aux). (* aux *) subst b. inversion F as [|? v ? a' Hk F']; subst; destruct Hk as [c ->]. inversion F'; subst. simpl. eapply comes_makes; [done|constructor|by left].
  - is_method (m_styled). (* styled *) subst b. inversion F as [|? v ? a' Hk F']; subst; destruct Hk as [n ->]. inversion F'; subst. simpl. eapply comes_sets; [|by left].
    constructor. eapply change_by; [done|fields|done].
  - is_method (m_title). (* title *) inversion F as [|? v ? a' Hk F']; subst; destruct Hk as [t ->]. inversion F'; subst. apply kinds_str in Hb as (given & ->). simpl.
    rewrite str_args_map. unfold getself, getpath. simpl. unfold mbind, mheap. rewrite Hx.
    destruct (is_empty (s_title x)) eqn:He.
    + apply empty_iff in He. simpl. unfold mbind, mheap, mlift; simpl.
      pose proof (tags_result E (st_heap s) t given) as HT.
      destruct (title_tags _ _ _ _ _ _) as [names|e| |]; simpl.
      * destruct HT as [HT Hne]. eapply comes_sets; [|by right]. eapply sets_title; [done|].
        destruct (set_title_rest self t (s_invloc x) names x) as (H1 & H2 & H3 & H4 & H5 & H6 & H7 & H8 & H9 & H10 & H11 & H12 & H13 & H14 & H15).
        destruct (title_fields self t (s_invloc x) names x) as [H16 H17].
        eapply change_by; [done| |].
        -- intros []; unfold same; intros Hk; try (symmetry; assumption); exfalso; apply Hk; set_solver.
        -- split; [done|]. split; [done|]. split; [done|]. split; [done|]. rewrite H17, H16. by destruct names.
      * destruct HT as [-> HT]. by eapply comes_untitled.
      * destruct HT as [-> HT]. by eapply comes_untitled.
      * destruct HT as [-> HT]. by eapply comes_untitled.
    + destruct (file_path_total (st_heap s) self Hw Hv) as [f Hf]. simpl. unfold mbind, mheap. rewrite Hf. simpl.
      eapply comes_rejects; [|by left]. econstructor; [done| |done].
      intros Hc. rewrite Hc in He. done.
  - is_method (m_single_page). (* single-page *) subst b. inversion F; subst. simpl. eapply comes_sets; [|by left]. constructor. eapply change_by; [done|fields|done].
  - is_method (m_omit). (* omit *) subst b. inversion F; subst. simpl. eapply comes_sets; [|by left]. constructor. eapply change_by; [done|fields|done].
  - is_method (m_split). (* split *) subst b. inversion F; subst. simpl. unfold mbind, mupd, mheap. simpl. rewrite split_prevented_upd by done.
    destruct (split_prevented_spec (st_heap s) self Hw Hv) as (b & -> & Hb). destruct b; simpl.
    + eapply comes_sets; [|by left]. apply sets_no_split; [by apply Hb|]. eapply change_by; [done|fields|done].
    + eapply comes_sets; [|by left]. apply sets_split.
      { intros Hp. assert (false = true) by by apply Hb. done. }
      exists x, (set_flags x true (s_prevent x) true (s_omit x)). split; [done|]. simpl. split.
      { rewrite (upd_insert _ _ _ _ Hx). erewrite upd_insert; [|apply list_lookup_insert; by eapply lookup_lt_Some].
        by rewrite list_insert_insert. }
      split; [done|]. split; [fields|done].
  - is_method (m_set_partial). (* set-partial *) subst b. inversion F as [|? v ? a' Hk F']; subst; destruct Hk as [n ->]. inversion F' as [|? v ? a'' Hk F'']; subst; destruct Hk as [c ->]. inversion F''; subst.
    simpl. eapply comes_sets; [|by left]. constructor. eapply change_by; [done|fields|].
    unfold partial, set_partial. simpl. split.
    + rewrite assoc_get_set. by rewrite String.eqb_refl.
    + intros k Hk. rewrite assoc_get_set. by rewrite (proj2 (String.eqb_neq n k)).
  - is_method (m_use_plugin). (* use-plugin *) subst b. inversion F as [|? v ? a' Hk F']; subst; destruct Hk as [n ->]. inversion F'; subst. simpl.
    destruct (e_registry E n) as [f|] eqn:Hr; simpl.
    + eapply comes_sets; [|by right]. econstructor; [done|]. eapply change_by; [done|fields|done].
    + eapply comes_rejects; [by constructor|by left].
Qed.
