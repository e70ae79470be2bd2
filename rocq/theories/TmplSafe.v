(** Nothing but the templates and raw HTML makes up the markup of a page. *)
From Coq Require Import Ascii String Lia.
From stdpp Require Import base tactics relations functions strings list.
From Verif Require Import GoBase StrProofs Ast Content Section Sound Render Html Templates Tmpl TmplEsc TmplExec TmplInd TmplEscProofs TmplMono TmplSafeSpec.
Local Open Scope string_scope.
Local Open Scope list_scope.

(** ** Inert text *)

Lemma inert_app a b : inert (a +:+ b) ↔ inert a ∧ inert b.
Proof. unfold inert. rewrite sforall_app, andb_true_iff. done. Qed.
Lemma inert_char c s : sforall (λ c, negb (existsb (Ascii.eqb c) ["<"; ">"; """"; "'"]%char)) (String c "") = true → inert s → inert (String c s).
Proof. intros A B. change (String c s) with (String c "" +:+ s). by apply inert_app. Qed.
Lemma escape_inert s : inert (escape s).
Proof.
  induction s as [|c s IH]; [done|]. cbn [escape]. apply inert_app. split; [|done].
  destruct c as [[] [] [] [] [] [] [] []]; vm_compute; reflexivity.
Qed.
Lemma escape_norm_inert s : inert (escape_norm s).
Proof.
  induction s as [|c s IH]; [done|]. cbn [escape_norm]. apply inert_app. split; [|done].
  destruct c as [[] [] [] [] [] [] [] []]; vm_compute; reflexivity.
Qed.
Lemma name_filter_inert s : inert (name_filter s).
Proof.
  unfold name_filter. destruct (_ && _) eqn:E; [|done]. apply andb_true_iff in E as [_ E].
  eapply sforall_impl; [|exact E]. intros c. destruct c as [[] [] [] [] [] [] [] []]; vm_compute; congruence.
Qed.

(** ** Escaped templates *)

Lemma soft_refl s : softened s s.
Proof. induction s; by constructor. Qed.
Lemma soft_app a a' b b' : softened a a' → softened b b' → softened (a +:+ b) (a' +:+ b').
Proof. induction 1; intros; cbn; [done|constructor; auto|]. apply (soft_lt _ (s' +:+ b')). auto. Qed.
Lemma escape_lt_soft s : softened s (escape_lt s).
Proof.
  induction s as [|c s IH]; [constructor|]. cbn [escape_lt]. destruct (Ascii.eqb_spec c "<") as [->|_]; by constructor.
Qed.

Lemma skip_sp_eq s a b : skip_sp s = (a, b) → s = a +:+ b.
Proof.
  revert a b. induction s as [|c s IH]; intros a b; cbn [skip_sp]; [by intros [= <- <-]|].
  destruct (is_html_sp c); [|by intros [= <- <-]].
  destruct (skip_sp s) as [x y]. intros [= <- <-]. cbn. f_equal. by apply IH.
Qed.
Lemma tag_name_eq s a b : tag_name s = (a, b) → s = a +:+ b.
Proof.
  revert a b. induction s as [|c s IH]; intros a b; cbn [tag_name]; [by intros [= <- <-]|].
  destruct (is_lower c || is_upper c || is_digit c).
  { destruct (tag_name s) as [x y]. intros [= <- <-]. cbn. f_equal. by apply IH. }
  destruct (Ascii.eqb c ":" || Ascii.eqb c "-"); [|by intros [= <- <-]].
  destruct s as [|d s']; [by intros [= <- <-]|].
  destruct (is_lower d || is_upper d || is_digit d); [|by intros [= <- <-]].
  destruct (tag_name (String d s')) as [x y]. intros [= <- <-]. cbn. f_equal. by apply IH.
Qed.
Lemma eat_tag_name_eq s a b : eat_tag_name s = (a, b) → s = a +:+ b.
Proof.
  unfold eat_tag_name. destruct s as [|c s]; [by intros [= <- <-]|].
  destruct (is_lower c || is_upper c); [apply tag_name_eq|by intros [= <- <-]].
Qed.
Lemma attr_name_eq s a b : attr_name s = Some (a, b) → s = a +:+ b.
Proof.
  revert a b. induction s as [|c s IH]; intros a b; cbn [attr_name]; [by intros [= <- <-]|].
  destruct (is_html_sp c || Ascii.eqb c "=" || Ascii.eqb c ">"); [by intros [= <- <-]|].
  destruct (Ascii.eqb c "'" || Ascii.eqb c """" || Ascii.eqb c "<"); [done|].
  destruct (attr_name s) as [[x y]|]; [|done]. cbn [base.mbind option_bind]. intros [= <- <-].
  cbn. f_equal. by apply IH.
Qed.
Lemma split_end_eq e s a o : split_end e s = (a, o) → s = a +:+ default "" o.
Proof.
  revert a o. induction s as [|c s IH]; intros a o; cbn [split_end].
  - destruct (ends_element e ""); by intros [= <- <-].
  - destruct (ends_element e (String c s)); [by intros [= <- <-]|].
    destruct (split_end e s) as [x y]. intros [= <- <-]. cbn. f_equal. by apply IH.
Qed.
Lemma split_char_eq q s a o : split_char q s = (a, o) → s = a +:+ match o with Some r => String q r | None => "" end.
Proof.
  revert a o. induction s as [|c s IH]; intros a o; cbn [split_char]; [by intros [= <- <-]|].
  destruct (Ascii.eqb_spec c q) as [->|_]; [by intros [= <- <-]|].
  destruct (split_char q s) as [x y]. intros [= <- <-]. cbn. f_equal. by apply IH.
Qed.

Lemma prepend_some a o x c : prepend a o = Some (x, c) → ∃ b, o = Some (b, c) ∧ x = a +:+ b.
Proof. unfold prepend. destruct o as [[b d]|]; [|done]. cbn [base.mbind option_bind]. intros [= <- <-]. eauto. Qed.

Lemma esc_text_soft n : ∀ c s s' c', esc_text n c s = Some (s', c') → softened s s'.
Proof.
  induction n as [|n IH]; intros c s s' c'; [done|].
  assert (∀ a a' b c o, prepend a' (esc_text n c b) = Some o → softened a a' → softened (a +:+ b) (fst o)) as G.
  { intros a a' b d [x y] E S. apply prepend_some in E as (z & E & ->). apply soft_app; [done|]. by eapply IH. }
  assert (∀ a b c o, prepend a (esc_text n c b) = Some o → softened (a +:+ b) (fst o)) as G'.
  { intros a b d o E. by eapply G, soft_refl. }
  destruct s as [|x r]; cbn [esc_text].
  { destruct c; by intros [= <- <-]; constructor. }
  destruct c as [|e|e|e|e a|e a|e a|e a q u].
  - destruct (Ascii.eqb_spec x "<") as [->|_].
    2: { intros E. by apply (G' _ _ _ _) in E. }
    destruct (has_prefix "!--" r); [done|].
    assert (∃ slash r', (match r with String d r' => if Ascii.eqb d "/" then ("/", r') else ("", r) | "" => ("", r) end) = (slash, r') ∧ r = slash +:+ r') as (slash & r' & -> & Hr).
    { destruct r as [|d r']; [by do 2 eexists|]. destruct (Ascii.eqb_spec d "/") as [->|]; by do 2 eexists. }
    destruct (eat_tag_name r') as [name r''] eqn:En. apply eat_tag_name_eq in En as ->.
    destruct name as [|d name].
    + intros E. apply (G "<" _ _ _ _) in E; [done|]. destruct (has_prefix _ _); [apply soft_refl|]. apply (soft_lt "" ""), soft_nil.
    + intros E. apply G' in E. cbn [fst] in E. rewrite Hr. by rewrite !sapp_assoc in E.
  - destruct (split_end e (String x r)) as [a [b|]] eqn:Es; apply split_end_eq in Es; rewrite Es; cbn [default].
    + intros E. eapply G in E; [done|apply escape_lt_soft].
    + intros [= <- <-]. rewrite sapp_nil_r. apply escape_lt_soft.
  - destruct (split_end e (String x r)) as [a [b|]] eqn:Es; apply split_end_eq in Es; rewrite Es; cbn [default];
      (destruct (sforall is_html_sp a); [|done]).
    + intros E. by apply G' in E.
    + intros [= <- <-]. rewrite sapp_nil_r. apply soft_refl.
  - destruct (skip_sp (String x r)) as [sp rest] eqn:Es. apply skip_sp_eq in Es. rewrite Es.
    destruct rest as [|y r']; [intros [= <- <-]; rewrite sapp_nil_r; apply soft_refl|].
    destruct (Ascii.eqb_spec y ">") as [->|_].
    { intros E. apply G' in E. by rewrite sapp_assoc in E. }
    destruct (attr_name (String y r')) as [[name r'']|] eqn:Ea; [|done]. cbn [base.mbind option_bind]. apply attr_name_eq in Ea.
    rewrite Ea. destruct name as [|d name]; [done|]. destruct r'' as [|z r''].
    + intros [= <- <-]. rewrite sapp_nil_r. apply soft_refl.
    + intros E. apply G' in E. by rewrite sapp_assoc in E.
  - destruct (attr_name (String x r)) as [[name r'']|] eqn:Ea; [|done]. cbn [base.mbind option_bind]. apply attr_name_eq in Ea.
    rewrite Ea. destruct r'' as [|z r''].
    + intros [= <- <-]. rewrite sapp_nil_r. apply soft_refl.
    + intros E. by apply G' in E.
  - destruct (skip_sp (String x r)) as [sp rest] eqn:Es. apply skip_sp_eq in Es. rewrite Es.
    destruct rest as [|y r']; [intros [= <- <-]; rewrite sapp_nil_r; apply soft_refl|].
    destruct (Ascii.eqb_spec y "=") as [->|_].
    { intros E. apply G' in E. by rewrite sapp_assoc in E. }
    intros E. by apply G' in E.
  - destruct (skip_sp (String x r)) as [sp rest] eqn:Es. apply skip_sp_eq in Es. rewrite Es.
    destruct rest as [|q r']; [intros [= <- <-]; rewrite sapp_nil_r; apply soft_refl|].
    destruct (Ascii.eqb q """" || Ascii.eqb q "'"); [|done].
    intros E. apply G' in E. by rewrite sapp_assoc in E.
  - destruct (split_char q (String x r)) as [v [b|]] eqn:Es; apply split_char_eq in Es; rewrite Es.
    + intros E. apply G' in E. by rewrite sapp_assoc in E.
    + rewrite sapp_nil_r. destruct a; try (by intros [= <- <-]; apply soft_refl).
      destruct (contains_str "&" v); [done|]. intros [= <- <-]. apply soft_refl.
Qed.

(** Every action has a place that is not the one of text templates. *)
Fixpoint in_place (x : node) : bool :=
  match x with
  | NText _ | NDecl _ _ | NCall _ _ => true
  | NAct XRaw _ => false
  | NAct _ _ => true
  | NIf _ t e | NWith _ t e | NRange _ _ t e => forallb in_place t && forallb in_place e
  end.

Section esc.
  Context (f n : string).
  Definition follows (l l' : list node) : Prop :=
    (forallb (without f n) l = true → forallb (without f n) l' = true) ∧ forallb in_place l' = true ∧
    ∀ s', s' ∈ flat_map texts l' → ∃ s, s ∈ flat_map texts l ∧ softened s s'.
  Lemma follows_cons x x' l l' : follows [x] [x'] → follows l l' → follows (x :: l) (x' :: l').
  Proof.
    intros (A & B & C) (A' & B' & C'). unfold follows. cbn [forallb flat_map] in *. rewrite ?andb_true_r, ?app_nil_r in *. split_and!.
    - intros [H H']%andb_true_iff. apply andb_true_iff. auto.
    - apply andb_true_iff. auto.
    - intros s'. rewrite elem_of_app. intros [H|H].
      + destruct (C _ H) as (s & Hs & S). exists s. rewrite elem_of_app. auto.
      + destruct (C' _ H) as (s & Hs & S). exists s. rewrite elem_of_app. auto.
  Qed.
  Lemma esc_list_follows l : Forall (λ x, ∀ c x' c', esc_node c x = Some (x', c') → follows [x] [x']) l → ∀ c l' c',
    esc_list esc_node c l = Some (l', c') → follows l l'.
  Proof.
    induction 1 as [|x l Hx _ IH]; intros c l' c'; cbn [esc_list].
    - intros [= <- <-]. split_and!; [done..|]. intros s' []%elem_of_nil.
    - destruct (esc_node c x) as [[x' d]|] eqn:E; [|done].
      destruct (esc_list esc_node d l) as [[l'' d']|] eqn:E'; [|done]. intros [= <- <-].
      apply follows_cons; [by eapply Hx|by eapply IH].
  Qed.
  Lemma branch_follows (k : list node → list node → node) p t e t' e' :
    (∀ t e, without f n (k t e) = negb (pipe_uses f p) && forallb (without f n) t && forallb (without f n) e) →
    (∀ t e, in_place (k t e) = forallb in_place t && forallb in_place e) →
    (∀ t e, texts (k t e) = flat_map texts t ++ flat_map texts e) →
    follows t t' → follows e e' → follows [k t e] [k t' e'].
  Proof.
    intros K1 K2 K3 (A & B & C) (A' & B' & C'). unfold follows. cbn [forallb flat_map].
    rewrite !andb_true_r, !app_nil_r, !K1, K2, !K3, !andb_true_iff. split_and!; [naive_solver|done..|].
    intros s'. rewrite elem_of_app. intros [H|H].
    - destruct (C _ H) as (s & Hs & S). exists s. rewrite elem_of_app. auto.
    - destruct (C' _ H) as (s & Hs & S). exists s. rewrite elem_of_app. auto.
  Qed.
  Lemma esc_node_follows x : ∀ c x' c', esc_node c x = Some (x', c') → follows [x] [x'].
  Proof.
    induction x as [s|x p|v p|p t e IHt IHe|p t e IHt IHe|vs p t e IHt IHe|m p] using node_ind'; intros c x' c'; cbn [esc_node].
    - destruct (esc_text _ c s) as [[s' d]|] eqn:E; [|done]. cbn [base.mbind option_bind]. intros [= <- <-].
      split_and!; [done..|]. cbn. intros s'' ->%elem_of_list_singleton. exists s. split; [by left|]. by eapply esc_text_soft.
    - destruct (place_in c) as [[y d]|] eqn:E; [|done]. cbn [base.mbind option_bind]. intros [= <- <-].
      split_and!; [done| |intros s' []%elem_of_nil].
      cbn. unfold place_in in E. destruct (nudge c) as [| | | | | | |? [] ? []]; simplify_eq; done.
    - intros [= <- <-]. split_and!; [done..|]. intros s' []%elem_of_nil.
    - destruct (esc_list esc_node c t) as [[t' c0]|] eqn:Et; [|done]. cbn [base.mbind option_bind].
      destruct (esc_list esc_node c e) as [[e' c1]|] eqn:Ee; [|done]. cbn [base.mbind option_bind].
      destruct (join_ctx c0 c1) as [c2|]; [|done]. cbn [base.mbind option_bind]. intros [= <- <-].
      apply (branch_follows (NIf p) p); [done..|by eapply esc_list_follows|by eapply esc_list_follows].
    - destruct (esc_list esc_node c t) as [[t' c0]|] eqn:Et; [|done]. cbn [base.mbind option_bind].
      destruct (esc_list esc_node c e) as [[e' c1]|] eqn:Ee; [|done]. cbn [base.mbind option_bind].
      destruct (join_ctx c0 c1) as [c2|]; [|done]. cbn [base.mbind option_bind]. intros [= <- <-].
      apply (branch_follows (NWith p) p); [done..|by eapply esc_list_follows|by eapply esc_list_follows].
    - destruct (esc_list esc_node c t) as [[t' c0]|] eqn:Et; [|done]. cbn [base.mbind option_bind].
      destruct (esc_list esc_node c0 t) as [[t'' c0']|] eqn:Et'; [|done]. cbn [base.mbind option_bind].
      destruct (join_ctx c0 c0') as [c00|]; [|done]. cbn [base.mbind option_bind].
      destruct (esc_list esc_node c e) as [[e' c1]|] eqn:Ee; [|done]. cbn [base.mbind option_bind].
      destruct (join_ctx c00 c1) as [c2|]; [|done]. cbn [base.mbind option_bind]. intros [= <- <-].
      apply (branch_follows (NRange vs p) p); [done..|by eapply esc_list_follows|by eapply esc_list_follows].
    - destruct c; try done. intros [= <- <-]. split_and!; [done..|]. intros s' []%elem_of_nil.
  Qed.
  Lemma esc_tree_follows t t' : esc_tree t = Some t' → follows t t'.
  Proof.
    unfold esc_tree. destruct (esc_list esc_node HText t) as [[u c]|] eqn:E; [|done]. cbn [base.mbind option_bind].
    destruct c; try done. intros [= <-]. eapply esc_list_follows; [|exact E].
    apply Forall_forall. intros x _. apply esc_node_follows.
  Qed.
End esc.

(** ** Values *)

Section values.
  Context (similar : string → string → bool) (broken : bool) (h : heap).
  Context (force : nat → option content) (str : content → outcome error string) (T : string → option (list node)).
  Context (ext : string).
  Notation made := (made h force str T).
  Notation occurs := (occurs h force).

  Inductive good : val → Prop :=
  | good_nil : good VNil
  | good_bool b : good (VBool b)
  | good_int n : good (VInt n)
  | good_str s : good (VStr s)
  | good_html s : made s → good (VHtml s)
  | good_url s : good (VUrl s)
  | good_con c : occurs c → good (VCon c)
  | good_sec i : good (VSec i)
  | good_tag t : Forall occurs (tag_contents t) → good (VTag t)
  | good_def s d : occurs s → occurs d → good (VDef s d)
  | good_list l : Forall good l → good (VList l)
  | good_walk i j : good (VWalk i j).

  Lemma good_vcon c : occurs c → good (vcon c).
  Proof. intros H. destruct c; by constructor. Qed.
  Lemma good_vcon_opt o : (∀ c, o = Some c → occurs c) → good (vcon_opt o).
  Proof. intros H. destruct o; [by apply good_vcon, H|constructor]. Qed.
  Lemma good_vsec_opt o : good (vsec_opt o).
  Proof. destruct o; constructor. Qed.
  Lemma good_list_map {A} (g : A → val) l : (∀ x, x ∈ l → good (g x)) → Forall good (map g l).
  Proof. intros H. apply Forall_fmap. apply Forall_forall. done. Qed.

  Definition fine (o : got) : Prop := ∀ v, o = Ok v → good v.
  Lemma fine_ok v : good v → fine (Ok v).
  Proof. by intros H ? [= <-]. Qed.
  Lemma fine_fails : fine fails.
  Proof. done. Qed.
  Lemma fine_want {A} (o : option A) g : (∀ x, o = Some x → good (g x)) → fine (want o g).
  Proof. intros H v. destruct o; [|done]. intros [= <-]. by apply H. Qed.
  Lemma fine_text c : fine (text_val str c).
  Proof. unfold text_val. destruct (str c); try done. apply fine_ok. constructor. Qed.
  Lemma fine_obind (o : got) g : fine o → (∀ v, good v → fine (g v)) → fine (obind g o).
  Proof. intros H G v. destruct o; try done. cbn. apply G, H. done. Qed.

  Lemma held_tag i s t : h !! i = Some s → t ∈ s_primary s :: s_tags s → good (VTag t).
  Proof.
    intros Hi Ht. constructor. apply Forall_forall. intros c Hc. eapply occ_held; [done|]. unfold held.
    do 2 right. apply elem_of_app. right. apply elem_of_list_In, in_flat_map. exists t. split; by apply elem_of_list_In.
  Qed.
  Lemma held_partial i s k c : h !! i = Some s → assoc_get k (s_partials s) = Some (Some c) → occurs c.
  Proof.
    intros Hi E. eapply occ_held; [done|]. unfold held. do 2 right. apply elem_of_app. left.
    apply elem_of_list_omap. exists (k, Some c). split; [|done]. clear Hi.
    induction (s_partials s) as [|[k' o] l IH]; [done|]. cbn [assoc_get] in E. destruct (String.eqb_spec k' k) as [->|_].
    - injection E as ->. left.
    - right. auto.
  Qed.
  Lemma styled_partial st b x ps k c : occurs (CStyled st b x ps) → assoc_get k ps = Some (Some c) → occurs c.
  Proof.
    intros O E. eapply occ_part; [done|]. cbn. right. apply elem_of_list_omap. exists (k, Some c). split; [|done]. clear O.
    induction ps as [|[k' o] l IH]; [done|]. cbn [assoc_get] in E. destruct (String.eqb_spec k' k) as [->|_].
    - injection E as ->. left.
    - right. auto.
  Qed.
  Lemma ref_tag_good sec name o l t : ref_tag similar broken h sec name o l = Ok (Some t) → good (VTag t).
  Proof.
    unfold ref_tag. destruct (resolve similar h sec name o l) as [[t'|]|e| |] eqn:E; try done.
    - intros [= ->]. unfold resolve in E. destruct (find_tag h sec name) as [[|t1 [|]]|] eqn:F; simplify_eq.
      + destruct o; [done|]. destruct (similar_tags _ _ _ _); [|done]. by destruct (file_path _ _).
      + destruct (find_tag_from _ _ _ _ t F) as (j & x & Hx & Ht); [by left|]. eapply held_tag; [done|by right].
      + destruct (mapM _ _); [|done]. by destruct (file_path _ _).
    - destruct broken; [|done]. intros [= <-]. constructor. repeat constructor.
  Qed.

  Lemma section_fine i s f args : h !! i = Some s → fine (section_member h str i s f args).
  Proof.
    intros Hi. unfold section_member.
    assert (occurs (s_title s)) as Ot by (eapply occ_held; [done|by left]).
    assert (occurs (s_body s)) as Ob by (eapply occ_held; [done|right; by left]).
    destruct args as [|v args].
    - repeat match goal with |- fine (if ?b then _ else _) => destruct b end.
      all: first [ apply fine_fails | apply fine_text | apply fine_want; intros; first [apply good_vsec_opt|constructor] | apply fine_ok ].
      all: first [ apply good_vsec_opt | by apply good_vcon | by eapply held_tag, elem_of_list_here | constructor ].
      + apply good_list_map. intros t Ht. eapply held_tag; [done|by right].
      + apply good_list_map. intros; constructor.
      + apply good_list_map. intros t Ht. eapply held_tag; [done|]. right.
        apply elem_of_list_In in Ht. apply filter_In in Ht as [Ht _]. by apply elem_of_list_In.
    - destruct v; try apply fine_fails; destruct args; try apply fine_fails.
      + destruct (String.eqb f "Partial").
        { apply fine_ok, good_vcon_opt. unfold partial. intros c E. destruct (assoc_get _ _) as [o|] eqn:A; [|done]. subst o.
          by eapply held_partial. }
        destruct (String.eqb f "FindTag"); [|done]. apply fine_want. intros ts E. constructor. apply good_list_map.
        intros t Ht. destruct (find_tag_from _ _ _ _ _ E Ht) as (j & x & Hx & Hin). eapply held_tag; [done|by right].
      + destruct (String.eqb f "Contains"); [apply fine_want; constructor|].
        destruct (String.eqb f "IsOrHasChild"); [apply fine_want; constructor|done].
  Qed.
  Lemma content_fine c f args : occurs c → fine (content_member similar broken h str c f args).
  Proof.
    intros O. unfold content_member.
    assert (∀ c', c' ∈ parts c → occurs c') as P by (intros c' Hc; by eapply occ_part).
    destruct args as [|v args].
    - destruct (String.eqb f "String"); [apply fine_text|].
      destruct (String.eqb f "IsFlow"); [apply fine_ok; constructor|].
      destruct c; try apply fine_fails.
      all: repeat match goal with |- fine (if ?b then _ else _) => destruct b end.
      all: try apply fine_fails; try (apply fine_ok; by constructor).
      all: try (apply fine_ok, good_vcon, P; by left).
      all: try (apply fine_ok; constructor; apply good_list_map; intros; by apply good_vcon, P).
      + apply fine_ok, good_vcon_opt. intros c' ->. apply P. by left.
      + destruct (ref_tag _ _ _ _ _ _ _) as [[t|]| | |] eqn:E; try done; apply fine_ok; [|constructor]. by eapply ref_tag_good.
      + destruct (ref_display _ _ _ _ _ _ _ _) as [d| | |] eqn:E; try done. apply fine_ok, good_vcon_opt. intros c' ->.
        unfold ref_display in E. destruct c as [c|]; [injection E as ->; apply P; by left|].
        destruct (ref_tag _ _ _ _ _ _ _) as [[t|]| | |] eqn:E'; try done. injection E as E. apply ref_tag_good in E'.
        inversion E' as [| | | | | | | |? F| | |]; subst. rewrite Forall_forall in F. apply F. unfold tag_contents. cbn. rewrite E. by left.
      + apply fine_ok, good_vcon_opt. intros c' ->. apply P. cbn. by left.
      + apply fine_ok, good_vcon_opt. intros c' ->. apply P. cbn. apply elem_of_app. right. by left.
      + apply fine_ok. constructor. apply good_list_map. intros r Hr. constructor. apply good_list_map. intros x Hx.
        apply good_vcon, P. cbn. apply elem_of_list_In, in_concat. exists r. split; by apply elem_of_list_In.
    - destruct v; try apply fine_fails; destruct args; try apply fine_fails. destruct c; try apply fine_fails.
      destruct (String.eqb f "Partial"); [|done]. apply fine_ok, good_vcon_opt. intros c' E.
      destruct (assoc_get _ _) as [o|] eqn:A; [|done]. subst o. by eapply styled_partial.
  Qed.
  Lemma member_fine v f args : good v → fine (member similar broken h str v f args).
  Proof.
    intros G. unfold member. destruct v; try done.
    - inversion G; subst. by apply content_fine.
    - destruct (h !! i) as [s|] eqn:E; [|done]. by apply section_fine.
    - destruct args; [|done]. inversion G as [| | | | | | | |? F| | |]; subst. rewrite Forall_forall in F.
      repeat match goal with |- fine (if ?b then _ else _) => destruct b end; try done; apply fine_ok; try constructor; try apply good_vsec_opt.
      + apply good_vcon_opt. intros c E. apply F. unfold tag_contents. cbn. rewrite E. by left.
      + apply good_vcon_opt. intros c E. apply F. unfold tag_contents. cbn. rewrite E. destruct (t_title t); [right|]; by left.
    - destruct args; [|done]. inversion G; subst.
      repeat match goal with |- fine (if ?b then _ else _) => destruct b end; try done; apply fine_ok; by apply good_vcon.
    - destruct args; [|done].
      repeat match goal with |- fine (if ?b then _ else _) => destruct b end; try done; apply fine_ok; constructor.
  Qed.
  Lemma members_fine fs : ∀ v args, good v → fine (members similar broken h str v fs args).
  Proof.
    induction fs as [|f fs IH]; intros v args G; cbn [members].
    - destruct args; [by apply fine_ok|done].
    - destruct fs as [|g fs]; [by apply member_fine|]. apply fine_obind; [by apply member_fine|]. intros w Gw. by apply IH.
  Qed.
  Lemma items_good v l : good v → items v = Some l → Forall good l.
  Proof.
    intros G. unfold items. destruct v as [| | | | | |c| | | |l'|]; try done.
    - inversion G; subst. assert (∀ c', c' ∈ parts c → occurs c') as P by (intros c' Hc; by eapply occ_part).
      destruct c; try done; intros [= <-].
      1-3: apply good_list_map; intros; by apply good_vcon, P.
      apply good_list_map. intros [s d] Hp. apply elem_of_list_In in Hp.
      constructor; apply P, elem_of_list_In, in_flat_map; exists (s, d); (split; [done|]); cbn; auto.
    - intros [= <-]. by inversion G.
  Qed.

  (** Whether they come from rendering. *)
  Context (R : content → rendered) (call : string → val → rendered).
  Context (HR : ∀ c s, occurs c → R c = Ok s → made s).
  Context (Hcall : ∀ n v s, n ≠ "raw-html.tmpl" → good v → call n v = Ok s → made s).

  Lemma con_of_occurs v c : good v → con_of v = Some c → occurs c.
  Proof. intros G. destruct v; try done; intros [= <-]; [by inversion G|constructor]. Qed.

  Lemma func_fine f args : f ≠ "rawHTML" → Forall good args → fine (apply_func h str ext true R f args).
  Proof.
    intros Hf G. unfold apply_func.
    destruct (String.eqb f "not"); [destruct args as [|? [|]]; try done; apply fine_ok; constructor|].
    destruct (String.eqb f "eq"); [destruct args as [|? [|? ?]]; try done; apply fine_want; constructor|].
    destruct (String.eqb f "ne"); [destruct args as [|? [|? [|]]]; try done; apply fine_want; constructor|].
    destruct (String.eqb f "len").
    { destruct args as [|a [|]]; try done. destruct (str_val a); [apply fine_ok; constructor|apply fine_want; constructor]. }
    destruct (String.eqb f "render").
    { destruct args as [|a [|]]; try done. apply Forall_inv in G. destruct (con_of a) as [c|] eqn:E; [|done].
      intros v. destruct (R c) as [s| | |] eqn:Er; try done. cbn. intros [= <-]. constructor. eapply HR; [|done]. by eapply con_of_occurs. }
    destruct (String.eqb f "url").
    { destruct args as [|a [|]]; try done; destruct a; try done. apply fine_want; constructor. }
    destruct (String.eqb f "stripAux").
    { destruct args as [|a [|]]; try done. apply Forall_inv in G. destruct (con_of a) as [c|] eqn:E; [|done].
      destruct (strip_aux c) as [c'|] eqn:E'; [|done]. apply fine_ok, (good_vcon_opt (Some c')). intros c'' [= <-]. eapply occ_stripped; [|done].
      by eapply con_of_occurs. }
    destruct (String.eqb_spec f "rawHTML"); [done|].
    destruct (String.eqb f "rawURL").
    { destruct args as [|a [|]]; try done. destruct (con_of a) as [c|]; [|done]. destruct (str c); try done. apply fine_ok. constructor. }
    destruct (String.eqb f "walkContext").
    { destruct args as [|[] [|[] [|]]]; try done. apply fine_ok. constructor. }
    destruct (String.eqb f "headerDepth"); [|done].
    destruct args as [|[] [|]]; try done. apply fine_want. constructor.
  Qed.

  Notation tidy e := (Forall (λ p : string * val, good p.2) e).
  Lemma tidy_get e k v : tidy e → assoc_get k e = Some v → good v.
  Proof.
    induction 1 as [|[k' w] e Hw _ IH]; cbn [assoc_get]; [done|]. destruct (String.eqb k' k); [by intros [= <-]|done].
  Qed.

  Lemma omap_fine (g : operand → got) l vs : Forall (λ o, fine (g o)) l → omapM g l = Ok vs → Forall good vs.
  Proof.
    intros F. revert vs. induction F as [|o l Ho _ IH]; intros vs; cbn [omapM]; [by intros [= <-]|].
    destruct (g o) as [v| | |] eqn:E; try done. cbn [obind]. destruct (omapM g l) as [ws| | |]; try done. cbn [obind].
    intros [= <-]. constructor; [by apply Ho|by apply IH].
  Qed.
  Lemma shortcut_fine stop (g : operand → got) l : Forall (λ o, fine (g o)) l → ∀ v, good v → fine (shortcut stop g v l).
  Proof.
    induction 1 as [|o l Ho _ IH]; intros v G; cbn [shortcut]; destruct (Bool.eqb _ _); try by apply fine_ok.
    apply fine_obind; [done|]. exact IH.
  Qed.
  Lemma command_fine e dot (g : operand → got) cmd final : tidy e → good dot → (∀ v, final = Some v → good v) →
    existsb (uses "rawHTML") cmd = false → Forall (λ o, fine (g o)) cmd →
    fine (eval_command similar broken h str ext true R e dot g cmd final).
  Proof.
    intros He Hd Hf U F. destruct cmd as [|o args]; [done|]. apply Forall_cons in F as [Fo F].
    cbn [existsb] in U. apply orb_false_iff in U as [Uo U].
    assert (∀ k : list val → got, (∀ vs, Forall good vs → fine (k vs)) →
      fine (obind (λ vs, k (vs ++ match final with Some v => [v] | None => [] end)) (omapM g args))) as G.
    { intros k K v. destruct (omapM g args) as [vs| | |] eqn:E; try done. cbn [obind]. apply K. apply Forall_app. split; [by eapply omap_fine|].
      destruct final; [|done]. constructor; [by apply Hf|done]. }
    cbn [eval_command]. cbv zeta. destruct o as [|fs|v [|f fs]|f|s|n|b| |p].
    all: try (destruct args; [|done]; destruct final; [done|exact Fo]).
    - apply G. intros vs Hv. by apply members_fine.
    - destruct (assoc_get v e) as [x|] eqn:E; [|done]. apply G. intros vs Hv. apply members_fine. by eapply tidy_get.
    - destruct (String.eqb f "and" || String.eqb f "or").
      + destruct args as [|a args]; [done|]. destruct final; [done|]. apply Forall_cons in F as [Fa F].
        apply fine_obind; [done|]. intros v Gv. by apply shortcut_fine.
      + apply G. intros vs Hv. apply func_fine; [|done]. cbn in Uo. by apply String.eqb_neq.
    - done.
  Qed.
  Lemma pipe_fine e dot (g : operand → got) p : tidy e → good dot → pipe_uses "rawHTML" p = false →
    Forall (Forall (λ o, uses "rawHTML" o = false → fine (g o))) p → ∀ final, (∀ v, final = Some v → good v) →
    fine (eval_pipe similar broken h str ext true R e dot g p final).
  Proof.
    intros He Hd U F. revert U. induction F as [|cmd p Hc _ IH]; intros U final Hf; cbn [eval_pipe].
    - destruct final; [apply fine_ok; auto|done].
    - unfold pipe_uses in U. cbn [existsb] in U. apply orb_false_iff in U as [U U'].
      apply fine_obind.
      + apply command_fine; [done..|]. clear -U Hc. induction Hc as [|o cmd Ho _ IH]; [done|].
        cbn [existsb] in U. apply orb_false_iff in U as [U U']. auto.
      + intros v Gv. apply IH; [done|]. by intros ? [= <-].
  Qed.
  Lemma arg_fine e dot o : tidy e → good dot → uses "rawHTML" o = false → fine (eval_arg similar broken h str ext true R e dot o).
  Proof.
    intros He Hd. induction o as [|fs|v fs|f|s|n|b| |p IH] using operand_ind'; intros U; cbn [eval_arg].
    - by apply fine_ok.
    - by apply members_fine.
    - destruct (assoc_get v e) as [x|] eqn:E; [|done]. apply members_fine. by eapply tidy_get.
    - apply func_fine; [|done]. cbn in U. by apply String.eqb_neq.
    - apply fine_ok; constructor.
    - apply fine_ok; constructor.
    - apply fine_ok; constructor.
    - apply fine_ok; constructor.
    - by apply pipe_fine.
  Qed.
  Lemma eval_fine e dot p : tidy e → good dot → pipe_uses "rawHTML" p = false → fine (eval similar broken h str ext true R e dot p).
  Proof.
    intros He Hd U. apply pipe_fine; [done..| |done]. apply Forall_forall. intros c _. apply Forall_forall. intros o _. by apply arg_fine.
  Qed.

  (** ** Output *)

  Lemma put_made x v s : x ≠ XRaw → good v → put str true x v = Ok s → made s.
  Proof.
    intros X G. assert (∀ t, made (escape t)) as E by (intros; apply made_inert, escape_inert).
    unfold put. destruct x; [done|..]; try (destruct (is_html v); [done|]); destruct (show str true v) as [t| | |] eqn:S; try done; cbn [obind]; intros [= <-].
    - destruct v; cbn [is_html]; try apply E. cbn in S. injection S as <-. by inversion G.
    - destruct (is_html v); [|apply E]. apply made_inert, escape_norm_inert.
    - apply made_inert, name_filter_inert.
    - apply E.
    - apply E.
    - apply E.
    - apply E.
  Qed.

  Definition outputs (o : rendered) : Prop := ∀ s, o = Ok s → made s.
  Lemma outputs_obind {A} (o : outcome rerr A) g : (∀ v, o = Ok v → outputs (g v)) → outputs (obind g o).
  Proof. intros H s. destruct o; try done. cbn. by apply H. Qed.
  Lemma outputs_app o o' : outputs o → outputs o' → outputs (obind (λ s, obind (λ t, Ok (s +:+ t)) o') o).
  Proof. intros H H'. apply outputs_obind. intros s E. apply outputs_obind. intros t E' ? [= <-]. apply made_app; auto. Qed.

  Notation cleared := (without "rawHTML" "raw-html.tmpl").
  Lemma list_outputs (f : list (string * val) → val → node → rendered) dot l : good dot →
    forallb cleared l = true →
    Forall (λ x, cleared x = true → ∀ e dot, tidy e → good dot → outputs (f e dot x)) l → ∀ e, tidy e →
    outputs (exec_list similar broken h str ext true R f dot e l).
  Proof.
    intros Hd C F. revert C. induction F as [|x l Hx _ IH]; intros C e He; cbn [exec_list].
    - intros ? [= <-]. constructor.
    - cbn [forallb] in C. apply andb_true_iff in C as [Cx C]. specialize (IH C).
      destruct x; try (apply outputs_app; [by apply Hx|by apply IH]).
      apply outputs_obind. intros w E. apply IH. constructor; [|done]. cbn. eapply eval_fine; [..|exact E]; [done..|].
      cbn in Cx. by apply negb_true_iff.
  Qed.
  Lemma range_outputs (f : nat → val → rendered) l : (∀ i x, good x → outputs (f i x)) → Forall good l → ∀ i, outputs (exec_range f i l).
  Proof.
    intros H. induction 1 as [|x l Hx _ IH]; intros i; cbn [exec_range]; [intros ? [= <-]; constructor|].
    apply outputs_app; auto.
  Qed.
  Lemma binds_tidy vs i x e : tidy e → good x → tidy (binds vs i x e).
  Proof. intros He Hx. destruct vs as [|v [|w]]; cbn; [done|by constructor|]. constructor; [done|]. constructor; [constructor|done]. Qed.

  Lemma branch_outputs l : Forall (λ x, (∀ s, s ∈ texts x → made s) → in_place x = true → cleared x = true → ∀ e dot, tidy e → good dot →
      outputs (exec_node similar broken h str ext true R call e dot x)) l → (∀ s, s ∈ flat_map texts l → made s) →
    forallb in_place l = true → forallb cleared l = true → ∀ e dot, tidy e → good dot →
    outputs (exec_list similar broken h str ext true R (exec_node similar broken h str ext true R call) dot e l).
  Proof.
    intros F M I C e dot He Hd. apply list_outputs; [done..| |done]. rewrite Forall_forall in F. apply Forall_forall.
    intros x Hx Cx. apply F; [done| | |done].
    - intros s Hs. apply M. apply elem_of_list_In, in_flat_map. exists x. split; by apply elem_of_list_In.
    - rewrite forallb_forall in I. by apply I, elem_of_list_In.
  Qed.

  Lemma node_outputs x : (∀ s, s ∈ texts x → made s) → in_place x = true → cleared x = true → ∀ e dot, tidy e → good dot →
    outputs (exec_node similar broken h str ext true R call e dot x).
  Proof.
    induction x as [s|x p|v p|p t f IHt IHf|p t f IHt IHf|vs p t f IHt IHf|n p] using node_ind'; intros M I C e dot He Hd; cbn [exec_node].
    - intros ? [= <-]. apply M. by left.
    - apply outputs_obind. intros v E s. apply put_made; [by destruct x|]. eapply eval_fine; [..|exact E]; [done..|].
      cbn in C. by apply negb_true_iff.
    - intros ? [= <-]. constructor.
    - cbn in M, I, C. apply andb_true_iff in I as [It If]. apply andb_true_iff in C as [[Cp Ct]%andb_true_iff Cf].
      apply outputs_obind. intros v E. destruct (truth v); apply branch_outputs; try done; intros s Hs; apply M, elem_of_app; auto.
    - cbn in M, I, C. apply andb_true_iff in I as [It If]. apply andb_true_iff in C as [[Cp Ct]%andb_true_iff Cf].
      apply outputs_obind. intros v E. destruct (truth v); apply branch_outputs; try done; try (intros s Hs; apply M, elem_of_app; auto).
      eapply eval_fine; [..|exact E]; [done..|]. by apply negb_true_iff.
    - cbn in M, I, C. apply andb_true_iff in I as [It If]. apply andb_true_iff in C as [[Cp Ct]%andb_true_iff Cf].
      apply outputs_obind. intros v E. apply negb_true_iff in Cp. apply eval_fine in E; [|done..].
      destruct (items v) as [[|y l]|] eqn:Ei; [|  |done].
      + apply branch_outputs; try done. intros s Hs. apply M, elem_of_app; auto.
      + apply range_outputs; [|by eapply items_good]. intros i x Gx. apply branch_outputs; try done; [|by apply binds_tidy].
        intros s Hs. apply M, elem_of_app; auto.
    - cbn in C. apply andb_true_iff in C as [Cn Cp]. apply negb_true_iff, String.eqb_neq in Cn.
      apply outputs_obind. intros v E s. apply Hcall; [done|]. destruct p as [p|]; [|injection E as <-; constructor].
      eapply eval_fine; [..|exact E]; [done..|]. by apply negb_true_iff.
  Qed.
  Lemma exec_outputs t v : (∀ s, s ∈ flat_map texts t → made s) → forallb in_place t = true → forallb cleared t = true → good v →
    outputs (exec similar broken h str ext true R call t v).
  Proof.
    intros M I C G. unfold exec. apply list_outputs; [done..| |by repeat constructor]. apply Forall_forall. intros x Hx Cx.
    apply node_outputs; [|rewrite forallb_forall in I; by apply I, elem_of_list_In|done].
    intros s Hs. apply M. apply elem_of_list_In, in_flat_map. exists x. split; by apply elem_of_list_In.
  Qed.
End values.

Section run.
  Context (similar : string → string → bool) (broken : bool) (h : heap).
  Context (force : nat → option content) (str : content → outcome error string) (T : string → option (list node)).
  Context (ext : string) (HT : raw_only_there T).
  Notation run := (run similar broken h force str ext true T).
  Notation run_page := (run_page similar broken h force str ext true T).
  Notation made := (made h force str T).
  Notation occurs := (occurs h force).
  Notation good := (good h force str T).

  Lemma template_good c n v : occurs c → template_of h c = Some (n, v) → good v ∧ con_of v = Some c ∨ ∃ i, v = VSec i ∧ n = "toc".
  Proof.
    intros O. destruct c; cbn [template_of]; try discriminate; try (by intros [= <- <-]; left; split; [constructor|]).
    - destruct (h !! s) as [x|]; [|done]. cbn [base.mbind option_bind]. intros [= <- <-]. left. split; [constructor|done].
    - intros [= <- <-]. right. eauto.
  Qed.

  Lemma run_made k : (∀ c s, occurs c → run k (TRender c) = Ok s → made s) ∧
    (∀ n v s, n ≠ "raw-html.tmpl" → good v → run k (TExec n v) = Ok s → made s).
  Proof.
    induction k as [|k [IHr IHc]]; [done|].
    assert (∀ n v s, n ≠ "raw-html.tmpl" → good v → run (S k) (TExec n v) = Ok s → made s) as X.
    { intros n v s Hn G E. rewrite (run_task similar broken h force str ext true T k (TExec n v)) in E.
      destruct (T n) as [t|] eqn:Et; [|done]. destruct (HT _ _ Et) as [[? _]|[_ C]]; [done|].
      destruct (esc_tree t) as [t'|] eqn:Ee; [|done].
      destruct (esc_tree_follows "rawHTML" "raw-html.tmpl" _ _ Ee) as (C' & I & S).
      revert s E. apply exec_outputs with (force := force) (T := T); try done; [|by apply C'].
      intros s' Hs. destruct (S _ Hs) as (s & Hin & Hsoft). by eapply made_text. }
    split; [|exact X].
    intros c s O E.
    assert (match template_of h c with Some (name, v) => run (S k) (TExec (name +:+ ".tmpl") v) | None => fails end = Ok s → made s) as Y.
    { destruct (template_of h c) as [[n v]|] eqn:Ec; [|done]. clear E. intros E.
      destruct (String.eqb_spec n "raw-html") as [->|N].
      - rewrite (run_task similar broken h force str ext true T k (TExec ("raw-html" +:+ ".tmpl") v)) in E.
        destruct (T ("raw-html" +:+ ".tmpl")) as [t|] eqn:Et; [|done]. destruct (HT _ _ Et) as [[_ ->]|[? _]]; [|done].
        destruct (template_good _ _ _ O Ec) as [[_ G]|(i & _ & ?)]; [|done].
        replace (esc_tree raw_html_tree) with (Some [NAct XText [[ODot]; [OFunc "rawHTML"]]]) in E by reflexivity.
        unfold exec in E. cbn in E. rewrite G in E. destruct (str c) as [p| | |] eqn:Ep; try done. cbn in E. injection E as E.
        rewrite sapp_nil_r in E. subst p. by eapply made_raw.
      - eapply X; [|..|exact E].
        + intros F. apply N. by apply (sapp_inj_r n "raw-html" ".tmpl").
        + destruct (template_good _ _ _ O Ec) as [[G _]|(i & -> & _)]; [done|constructor]. }
    pose proof (run_task similar broken h force str ext true T k (TRender c)) as F.
    destruct c; rewrite F in E; try (by apply Y).
    - destruct (force thunk) as [x|] eqn:Ef; [|done]. eapply IHr; [|exact E]. by eapply occ_lazy.
    - eapply IHr; [|exact E]. eapply occ_part; [exact O|]. by left.
  Qed.
  Lemma run_page_made k i s : run_page k i = Ok s → made s.
  Proof.
    unfold TmplExec.run_page. destruct (h !! i) as [x|]; [|done].
    assert (∀ n, n ≠ "raw-html.tmpl" → run k (TExec n (VSec i)) = Ok s → made s) as X.
    { intros n Hn. apply run_made; [done|constructor]. }
    destruct (String.eqb (s_style x) ""); [by apply X|].
    assert (s_style x +:+ "-page.tmpl" ≠ "raw-html.tmpl") as N.
    { intros F. pose proof (has_suffix_app (s_style x) "-page.tmpl") as G. by rewrite F in G. }
    destruct (T _); by apply X.
  Qed.
End run.
