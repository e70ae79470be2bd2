(** The documentation's plugins do what DocsSpec.v says. *)
From Coq Require Import Ascii String NArith Lia.
From stdpp Require Import base tactics relations strings list.
From Verif Require Import GoBase Ast Content ContentSpec ContentProofs Section StrProofs TreeSpec TreeProofs TagProofs QueryProofs
  Evaluate EvalProofs EvalFrame EvalInv BaseInv EvalSpec EvalTheory EvalFail EvalOnce EvalText EvalMore EvalLoc BaseSpec BaseRuns
  Chroma Props_Chroma Docs DocsSpec.
Local Open Scope string_scope. Local Open Scope list_scope.

(** ** Cutting *)

Definition conv (p : DocsSpec.piece) : Props_Chroma.piece := match p with Plain s => PText s | Hit s => PMatch s end.
(** [m] finds what [hit] says. *)
Definition finds (m : string → option nat) (hit : string → string → Prop) : Prop :=
  (∀ s n, m s = Some n → 0 < n ∧ ∃ a z, s = a +:+ z ∧ String.length a = n ∧ hit a z) ∧
  (∀ a z, hit a z → m (a +:+ z) = Some (String.length a)).

Lemma push_matched c ps p : matched p (map conv (push c ps)) = matched (S p) (map conv ps).
Proof.
  destruct ps as [|[s|s] ps]; cbn [push map conv matched String.length]; [done| |].
  - f_equal. lia.
  - by rewrite Nat.add_1_r.
Qed.
Lemma push_text c ps : sconcat (map ptext (map conv (push c ps))) = String c (sconcat (map ptext (map conv ps))).
Proof. by destruct ps as [|[s|s] ps]. Qed.
Lemma push_maximal c ps : maximal (map conv ps) → maximal (map conv (push c ps)).
Proof. destruct ps as [|[s|s] ps]; cbn [push map conv maximal]; [done| |done]. by intros (_ & H1 & H2). Qed.
Lemma sdrop_over a z : sdrop (String.length a) (a +:+ z) = z.
Proof. induction a as [|c a IH]; [done|]. exact IH. Qed.
Lemma find_cuts m hit : finds m hit → ∀ k pos s, String.length s ≤ k →
  ∃ ps, cuts hit s ps ∧ matched pos (map conv ps) = find_all m k pos s ∧ maximal (map conv ps) ∧ sconcat (map ptext (map conv ps)) = s.
Proof.
  intros [F1 F2]. induction k as [|k IH]; intros pos s Hk.
  { destruct s; [|cbn in Hk; lia]. exists []. split; [constructor|done]. }
  destruct s as [|c r]; [exists []; split; [constructor|done]|]. cbn [find_all]. destruct (m (String c r)) as [n|] eqn:E.
  - destruct (F1 _ _ E) as (Hn & a & z & Ez & Ha & Hh). rewrite Ez, <- Ha, sdrop_over.
    destruct (IH (pos + String.length a) z) as (ps & H1 & H2 & H3 & H4).
    { rewrite Ez, slength_app in Hk. lia. }
    exists (Hit a :: ps). split; [by apply cut_hit|]. cbn [map conv matched maximal ptext]. rewrite H2. cbn [sconcat]. rewrite H4. done.
  - destruct (IH (S pos) r) as (ps & H1 & H2 & H3 & H4); [cbn in Hk; lia|]. exists (push c ps).
    split; [|rewrite push_matched, push_text, H4; split; [done|]; split; [by apply push_maximal|done]].
    apply cut_skip; [|done]. intros a z Ea Hh. apply F2 in Hh. congruence.
Qed.
Lemma matched_ordered ps : ∀ p, ordered p (p + String.length (sconcat (map ptext ps))) (matched p ps).
Proof.
  induction ps as [|[s|s] ps IH]; intros p; cbn [map ptext matched]; [cbn; lia| |]; cbn [sconcat]; rewrite slength_app, Nat.add_assoc.
  - specialize (IH (p + String.length s)). destruct (matched _ ps) as [|[b e] ms]; cbn [ordered] in *; [lia|]. destruct IH as (? & ? & ?). split; [lia|done].
  - cbn [ordered]. split; [lia|]. split; [lia|]. apply IH.
Qed.
Lemma transform_cuts m hit f s : finds m hit → ∃ ps, cuts hit s ps ∧
  transform_all (Transformer (find_with m) f) s = Some (map (λ p, match p with Plain t => CString t | Hit t => f t end) ps).
Proof.
  intros F. destruct (find_cuts m hit F (String.length s) 0 s ltac:(lia)) as (ps & H1 & H2 & H3 & H4). exists ps. split; [done|].
  set (t := Transformer (find_with m) f). pose proof (matched_ordered (map conv ps) 0) as Ho. rewrite H4, H2 in Ho.
  destruct (transform_all_pieces t s Ho) as (ps' & Hs & ->).
  assert (splits s (tr_find t s) (map conv ps)) as Hs'. { split; [exact H4|]. split; [exact H2|done]. }
  rewrite (splits_unique _ _ _ _ Hs Hs'). f_equal. rewrite map_map. unfold transformed. apply map_ext. intros [?|?]; done.
Qed.

(** ** The two expressions *)

Lemma run_split p s : ∃ a z, s = a +:+ z ∧ String.length a = run_of p s ∧ Forall (λ c, p c = true) (list_ascii_of_string a) ∧
  ∀ c z', z = String c z' → p c = false.
Proof.
  induction s as [|c s IH]; [exists "", ""; split; [done|]; split; [done|]; split; [constructor|done]|]. cbn [run_of]. destruct (p c) eqn:E.
  - destruct IH as (a & z & -> & Hl & Ha & Hz). exists (String c a), z. split; [done|]. cbn [String.length list_ascii_of_string]. split; [by f_equal|].
    split; [by constructor|done].
  - exists "", (String c s). split; [done|]. split; [done|]. split; [constructor|]. by intros ? ? [= <- _].
Qed.
Lemma run_over p a z : Forall (λ c, p c = true) (list_ascii_of_string a) → (∀ c z', z = String c z' → p c = false) → run_of p (a +:+ z) = String.length a.
Proof.
  intros Ha Hz. induction a as [|c a IH]; cbn [list_ascii_of_string] in Ha.
  - change ("" +:+ z) with z. destruct z as [|c z]; [done|]. cbn [run_of]. by rewrite (Hz c z eq_refl).
  - apply Forall_cons in Ha as [Hc Ha]. change (String c a +:+ z) with (String c (a +:+ z)). cbn [run_of String.length]. rewrite Hc. f_equal. by apply IH.
Qed.
Lemma name_byte_char c : name_byte c = true ↔ name_char c.
Proof.
  unfold name_byte, name_char. rewrite orb_true_iff, andb_true_iff, !N.leb_le, Ascii.eqb_eq. naive_solver.
Qed.
Lemma link_finds : finds link_match link_hit.
Proof.
  split.
  - intros s n. destruct s as [|c r]; [done|]. cbn [link_match]. destruct (Ascii.eqb_spec c "\") as [->|]; [|done].
    destruct (run_split name_byte r) as (a & z & -> & Hl & Ha & Hz). destruct (run_of name_byte (a +:+ z)) as [|k] eqn:Ek; [done|]. intros [= <-]. split; [lia|].
    exists ("\" +:+ a), z. split; [done|]. split; [cbn; by rewrite Hl|]. exists a. split; [done|]. split; [by intros ->|]. split.
    + eapply Forall_impl; [exact Ha|]. intros x Hx. by apply name_byte_char.
    + intros x z' Ez Hx. apply name_byte_char in Hx. by rewrite (Hz _ _ Ez) in Hx.
  - intros a z (n & -> & Hn & Ha & Hz). change (("\" +:+ n) +:+ z) with (String "\" (n +:+ z)). cbn [link_match]. rewrite Ascii.eqb_refl.
    rewrite run_over; [destruct n; [done|]; reflexivity| |].
    + eapply Forall_impl; [exact Ha|]. intros x Hx. by apply name_byte_char.
    + intros x z' Ez. apply not_true_iff_false. intros Hx%name_byte_char. by eapply Hz.
Qed.
Lemma arg_finds : finds arg_match arg_hit.
Proof.
  set (p := λ c : ascii, negb (Ascii.eqb c "}")).
  assert (∀ a, Forall (λ c, p c = true) (list_ascii_of_string a) ↔ "}"%char ∉ list_ascii_of_string a) as Hp.
  { intros a. rewrite Forall_forall. split.
    - intros H X. apply H in X. unfold p in X. by rewrite Ascii.eqb_refl in X.
    - intros H c Hc. unfold p. destruct (Ascii.eqb_spec c "}") as [->|]; done. }
  split.
  - intros s n. destruct s as [|c r]; [done|]. cbn [arg_match]. destruct (Ascii.eqb_spec c "{") as [->|]; [|done]. fold p.
    destruct (run_split p r) as (a & z & -> & Hl & Ha & Hz). cbv zeta. rewrite <- Hl.
    destruct (String.length a) as [|k] eqn:Ek; [done|]. rewrite <- Ek, sdrop_over. destruct z as [|d z]; [done|]. intros [= <-]. split; [lia|].
    specialize (Hz d z eq_refl). unfold p in Hz. apply negb_false_iff, Ascii.eqb_eq in Hz as ->.
    exists ("{" +:+ a +:+ "}"), z. split; [cbn; f_equal; by rewrite sapp_assoc|]. split; [cbn; rewrite slength_app, Ek; cbn; lia|].
    exists a. split; [done|]. split; [by intros ->|]. by apply Hp.
  - intros m z (a & -> & Hn & Ha). change (("{" +:+ a +:+ "}") +:+ z) with (String "{" ((a +:+ "}") +:+ z)). rewrite sapp_assoc. change ("}" +:+ z) with (String "}" z). cbn [arg_match]. rewrite Ascii.eqb_refl. fold p. cbv zeta.
    rewrite run_over; [|by apply Hp|by intros ? ? [= <- _]]. destruct (String.length a) as [|k] eqn:Ek; [by destruct a|]. rewrite <- Ek, sdrop_over. cbn [String.length]. rewrite !slength_app. cbn [String.length]. f_equal. lia.
Qed.

Lemma hit_det m hit : finds m hit → ∀ a z a' z', hit a z → hit a' z' → a +:+ z = a' +:+ z' → a = a' ∧ z = z'.
Proof.
  intros [F1 F2] a z a' z' H H' E. pose proof (F2 _ _ H) as L. pose proof (F2 _ _ H') as L'. rewrite E, L' in L. injection L as L.
  assert (∀ a b c d, a +:+ c = b +:+ d → String.length a = String.length b → a = b ∧ c = d) as Inj; [|by apply Inj].
  clear. induction a as [|x a IH]; intros [|y b] c d E H; cbn in H; try lia; [done|]. injection E as -> E. injection H as H. by destruct (IH _ _ _ E H) as [-> ->].
Qed.
Lemma cuts_det m hit s ps ps' : finds m hit → cuts hit s ps → cuts hit s ps' → ps = ps'.
Proof.
  intros F H. revert ps'. induction H as [|c s ps Hn H IH|a z ps Hh H IH]; intros ps' H'.
  - inversion H' as [|? ? ? ? ? E|a z ps0 Hh Hc E]; subst; [done|]. destruct F as [F1 F2]. pose proof (F2 _ _ Hh) as L. destruct a as [|]; [|done].
    apply F1 in L as [L _]. cbn in L. lia.
  - inversion H' as [|? ? ps0 Hn' Hc|a z ps0 Hh Hc E]; subst; [by rewrite (IH ps0)|]. by destruct (Hn a z).
  - remember (a +:+ z) as s eqn:Es. destruct H' as [|c s ps0 Hn' Hc|a' z' ps0 Hh' Hc].
    + destruct F as [F1 F2]. pose proof (F2 _ _ Hh) as L. destruct a as [|]; [|done]. apply F1 in L as [L _]. cbn in L. lia.
    + by destruct (Hn' a z).
    + destruct (hit_det m hit F _ _ _ _ Hh Hh' (eq_sym Es)) as [-> ->]. by rewrite (IH _ Hc).
Qed.

Lemma cuts_hits hit s ps m : cuts hit s ps → Hit m ∈ ps → ∃ z, hit m z.
Proof.
  induction 1 as [|c s ps _ _ IH|a z ps Hh _ IH]; [by intros ?%elem_of_nil| |].
  - intros H. apply IH. destruct ps as [|[t|t] ps]; cbn [push] in H; rewrite ?elem_of_cons in *; naive_solver.
  - intros [[= ->]|H]%elem_of_cons; eauto.
Qed.
Lemma trim_name m z : link_hit m z → trim_first "\" m = name_of m.
Proof. by intros (n & -> & _). Qed.
Lemma trim_last_brace a : trim_last "}" (a +:+ "}") = a.
Proof. induction a as [|c a IH]; [done|]. change (String c a +:+ "}") with (String c (a +:+ "}")). cbn [trim_last]. rewrite IH. by destruct a. Qed.
Lemma stake_over a z : stake (String.length a) (a +:+ z) = a.
Proof. induction a as [|c a IH]; [by destruct z|]. cbn [String.length stake]. change (String c a +:+ z) with (String c (a +:+ z)). cbn [stake]. by rewrite IH. Qed.
Lemma trim_arg m z : arg_hit m z → trim_first "{" (trim_last "}" m) = stake (String.length m - 2) (name_of m).
Proof.
  intros (a & -> & _ & _). rewrite <- (sapp_assoc "{" a "}"), trim_last_brace. change ("{" +:+ a) with (String "{" a). cbn [trim_first]. rewrite Ascii.eqb_refl.
  change (String "{" a +:+ "}") with (String "{" (a +:+ "}")). cbn [name_of String.length]. rewrite slength_app. cbn [String.length].
  replace (S (String.length a + 1) - 2) with (String.length a) by lia. by rewrite stake_over.
Qed.

Lemma each_app t l1 l2 : transform_each t (l1 ++ l2) = (a ← transform_each t l1; b ← transform_each t l2; Some (a ++ b)).
Proof.
  induction l1 as [|c l IH]; cbn [transform_each app].
  - by destruct (transform_each t l2).
  - destruct (match c with CString s => transform_all t s | _ => Some [c] end) as [o|]; [|done]. cbn [base.mbind option_bind]. rewrite IH.
    destruct (transform_each t l) as [o1|]; [|done]. cbn [base.mbind option_bind]. destruct (transform_each t l2) as [o2|]; [|done]. cbn [base.mbind option_bind].
    by rewrite app_assoc.
Qed.
Lemma links_parts self html : ∃ ps, cuts link_hit html ps ∧
  transform_all (link_transformer self) html = Some (map (λ p, match p with Plain t => CString t | Hit m => links_to self (name_of m) end) ps).
Proof.
  destruct (transform_cuts link_match link_hit (tr_apply (link_transformer self)) html link_finds) as (ps & H1 & H2). exists ps. split; [done|].
  change (Transformer (find_with link_match) (tr_apply (link_transformer self))) with (link_transformer self) in H2. rewrite H2. f_equal. apply map_ext_in. intros [t|m] Hin; [done|].
  apply elem_of_list_In in Hin. destruct (cuts_hits _ _ _ _ H1 Hin) as [z Hz]. cbn [link_transformer tr_apply]. by rewrite (trim_name _ _ Hz).
Qed.
Lemma args_parts s : ∃ qs, cuts arg_hit s qs ∧
  transform_all arg_transformer s = Some (map (λ p, match p with Plain t => CString t | Hit m => emphasized (stake (String.length m - 2) (name_of m)) end) qs).
Proof.
  destruct (transform_cuts arg_match arg_hit (tr_apply arg_transformer) s arg_finds) as (ps & H1 & H2). exists ps. split; [done|].
  change (Transformer (find_with arg_match) (tr_apply arg_transformer)) with arg_transformer in H2. rewrite H2. f_equal. apply map_ext_in. intros [t|m] Hin; [done|].
  apply elem_of_list_In in Hin. destruct (cuts_hits _ _ _ _ H1 Hin) as [z Hz]. cbn [arg_transformer tr_apply]. by rewrite (trim_arg _ _ Hz).
Qed.
Lemma syntax_plain language c html : syntax_transform language c html [] = Some (code language (is_flow c) [raw html]).
Proof. done. Qed.
Lemma syntax_links self language c html : ∃ parts, linked self html parts ∧
  syntax_transform language c html [link_transformer self] = Some (code language (is_flow c) parts).
Proof.
  destruct (links_parts self html) as (ps & H1 & H2). eexists. split; [by constructor|].
  unfold syntax_transform. cbn [transform_seq transform_each]. rewrite H2. cbn [base.mbind option_bind]. unfold code. repeat f_equal.
  rewrite app_nil_r. unfold raw_strings. rewrite map_map. apply map_ext. by intros [t|m].
Qed.
Lemma parts_shown self ps : ∃ css l, Forall2 (part_shown self) ps css ∧
  transform_each arg_transformer (map (λ p, match p with Plain t => CString t | Hit m => links_to self (name_of m) end) ps) = Some l ∧ raw_strings l = concat css.
Proof.
  induction ps as [|p ps (css & l & H1 & H2 & H3)]; [by exists [], []|]. cbn [map transform_each]. rewrite H2. destruct p as [t|m].
  - destruct (args_parts t) as (qs & Q1 & Q2). rewrite Q2. cbn [base.mbind option_bind]. eexists (_ :: css), _. split; [constructor; [by constructor|done]|].
    split; [reflexivity|]. unfold raw_strings in *. rewrite map_app, H3. cbn [concat]. f_equal. rewrite map_map. apply map_ext. by intros [?|?].
  - cbn [links_to base.mbind option_bind app]. eexists ([_] :: css), _. split; [constructor; [by constructor|done]|]. split; [reflexivity|].
    unfold raw_strings in *. cbn [map concat app]. by rewrite H3.
Qed.
Lemma syntax_both self language c html : ∃ parts, linked_emphasized self html parts ∧
  syntax_transform language c html [link_transformer self; arg_transformer] = Some (code language (is_flow c) parts).
Proof.
  destruct (links_parts self html) as (ps & H1 & H2). destruct (parts_shown self ps) as (css & l & P1 & P2 & P3).
  exists (concat css). split; [by econstructor|]. unfold syntax_transform. cbn [transform_seq transform_each]. rewrite H2. cbn [base.mbind option_bind].
  rewrite app_nil_r, P2. cbn [base.mbind option_bind]. unfold code. by rewrite P3.
Qed.

(** ** The functions *)

Definition ends (o : ending) (s : st) (r : st * outcome error (list retval)) : Prop :=
  match o with
  | Gives c => ∃ rets, (rets = [RCon (Some c)] ∨ rets = [RCon (Some c); RErr None]) ∧ r = (s, Ok rets)
  | Fails e => r = (s, Ok [RCon None; RErr (Some e)])
  | Crashes => r = (s, Panic)
  end.

Lemma str_args_map ss : str_args (map AStr ss) = Some ss.
Proof. induction ss as [|t ss IH]; [done|]. cbn [map str_args]. by rewrite IH. Qed.
Lemma split_first_none c s : split_first c s = None → c ∉ list_ascii_of_string s.
Proof.
  induction s as [|d s IH]; cbn [split_first list_ascii_of_string]; [by intros _ ?%elem_of_nil|]. destruct (Ascii.eqb_spec d c) as [|Hn]; [done|].
  destruct (split_first c s) as [[a b]|]; [done|]. intros _. apply not_elem_of_cons. split; [congruence|]. by apply IH.
Qed.
Lemma split_first_some c s a b : split_first c s = Some (a, b) → s = a +:+ String c b ∧ c ∉ list_ascii_of_string a.
Proof.
  revert a. induction s as [|d s IH]; intros a; cbn [split_first]; [done|]. destruct (Ascii.eqb_spec d c) as [->|Hn].
  - intros [= <- <-]. split; [done|]. by intros ?%elem_of_nil.
  - destruct (split_first c s) as [[a' b']|]; [|done]. intros [= <- <-]. destruct (IH a' eq_refl) as [-> Hc]. split; [done|].
    cbn [list_ascii_of_string]. apply not_elem_of_cons. split; [congruence|done].
Qed.
Lemma ascii_app a b : list_ascii_of_string (a +:+ b) = list_ascii_of_string a ++ list_ascii_of_string b.
Proof. induction a as [|c a IH]; [done|]. cbn. by f_equal. Qed.
Lemma trim_left_split c s : ∃ a, s = a +:+ trim_left c s ∧ Forall (λ d, d = c) (list_ascii_of_string a) ∧ ∀ r, trim_left c s ≠ String c r.
Proof.
  induction s as [|d s (a & H1 & H2 & H3)]; [exists ""; split; [done|]; split; [constructor|done]|]. cbn [trim_left]. destruct (Ascii.eqb_spec d c) as [->|Hn].
  - exists (String c a). split; [by rewrite H1 at 1|]. split; [by constructor|done].
  - exists "". split; [done|]. split; [constructor|]. by intros r [= -> _].
Qed.
Lemma render_written show args : match render_args show args with Some s => written_args show args s | None => ∀ s, ¬ written_args show args s end.
Proof.
  induction args as [|a args IH]; cbn [render_args]; [constructor|]. destruct a as [u|l|ls|ls|fn fa l]; try (by intros s H; inversion H).
  destruct (render_args show args) as [r|]; cbn [base.mbind option_bind].
  - constructor; [|done]. clear. induction l as [|nd l IHl]; constructor; [|done]. by destruct nd.
  - intros s H. inversion H as [|? ? ? r ? Hw]; subst. by eapply IH.
Qed.

Section Runs.
  Variable E : env.
  Variable rec : nat → option content → node → M (option content).
  Variable hl : string → option string → bool → string → string + error.
  Variable show : node → string.
  Let tbl := docs_method (e_similar E) (e_broken E) (e_jumps E) hl show.

  Lemma run_highlight {A} self language c style ts (k : content + error → prog A) s :
    run_prog E rec self (highlight (e_similar E) (e_broken E) (e_jumps E) hl language c style ts k) s =
    match str E (st_heap s) c with
    | Ok t => match hl language style (is_flow c) t with
              | inr e => run_prog E rec self (k (inr e)) s
              | inl html => match syntax_transform language c html ts with Some x => run_prog E rec self (k (inl x)) s | None => (s, Panic) end
              end
    | _ => (s, Panic)
    end.
  Proof.
    unfold highlight, str. cbn [run_prog]. unfold mbind, mheap. destruct (cstring _ _ _ _ c); try done. destruct (hl _ _ _ _); [|done].
    by destruct (syntax_transform _ _ _ _).
  Qed.
  Lemma run_getself {A} self (k : section → prog A) s x : st_heap s !! self = Some x →
    run_prog E rec self (getself self k) s = run_prog E rec self (k x) s.
  Proof. intros Hx. unfold getself. cbn [run_prog]. unfold mbind, mheap. by rewrite Hx. Qed.
  Lemma str_string h t : 0 < e_jumps E → str E h (CString t) = Ok t.
  Proof. unfold str. destruct (e_jumps E); [lia|]. done. Qed.

  Ltac head_of H := match type of H with ?t = ?u => let v := eval hnf in t in change (v = u) in H end; injection H as <-.

  Lemma suits_1 ty f argv : suits (Method [ty] None f) argv → ∃ v, argv = [v] ∧ kind ty v.
  Proof.
    intros (a & b & -> & F & ->). cbn [m_in] in F. apply Forall2_cons_inv_l in F as (v & a' & Hk & F & ->). apply Forall2_nil_inv_l in F as ->. by exists v.
  Qed.
  Lemma suits_2 t1 t2 f argv : suits (Method [t1; t2] None f) argv → ∃ v w, argv = [v; w] ∧ kind t1 v ∧ kind t2 w.
  Proof.
    intros (a & b & -> & F & ->). cbn [m_in] in F. apply Forall2_cons_inv_l in F as (v & a' & Hk & F & ->). apply Forall2_cons_inv_l in F as (w & a & Hk' & F & ->).
    apply Forall2_nil_inv_l in F as ->. by exists v, w.
  Qed.
  Lemma suits_1v t1 ty f argv : suits (Method [t1] (Some ty) f) argv → ∃ v b, argv = v :: b ∧ kind t1 v ∧ Forall (kind ty) b.
  Proof.
    intros (a & b & -> & F & Hb). cbn [m_in] in F. apply Forall2_cons_inv_l in F as (v & a' & Hk & F & ->). apply Forall2_nil_inv_l in F as ->. by exists v, b.
  Qed.
  Lemma suits_2v t1 t2 ty f argv : suits (Method [t1; t2] (Some ty) f) argv → ∃ v w b, argv = v :: w :: b ∧ kind t1 v ∧ kind t2 w ∧ Forall (kind ty) b.
  Proof.
    intros (a & b & -> & F & Hb). cbn [m_in] in F. apply Forall2_cons_inv_l in F as (v & a' & Hk & F & ->). apply Forall2_cons_inv_l in F as (w & a & Hk' & F & ->).
    apply Forall2_nil_inv_l in F as ->. by exists v, w, b.
  Qed.

  Lemma not_readable h c : (∀ t, str E h c ≠ Ok t) → unreadable (str E h) c.
  Proof. done. Qed.

  Lemma syntax_comes self m x argv s : chroma_method (e_similar E) (e_broken E) (e_jumps E) hl (method_name "syntax") = Some m →
    suits m argv → st_heap s !! self = Some x →
    ∃ o, DocsSpec.syntax (str E (st_heap s)) hl argv o ∧ ends o s (run_prog E rec self (m_body m self argv) s).
  Proof.
    intros Hm Hs _. head_of Hm. apply suits_2v in Hs as (v & w & b & -> & [lang ->] & [c ->] & Hb). apply kinds_str in Hb as [ss ->].
    cbn [m_body m_syntax m_columns m_lit_syntax m_godoc m_define m_describe_fruit]. unfold con. rewrite str_args_map, run_highlight. destruct (str E (st_heap s) c) as [t|e| |] eqn:Et.
    - destruct (hl lang (head ss) (is_flow c) t) as [html|e] eqn:Eh.
      + rewrite syntax_plain. eexists. split; [eapply syntax_made; econstructor; [exact Et|exact Eh]|]. eexists. split; [by right|done].
      + eexists. split; [eapply syntax_failed; econstructor; [exact Et|exact Eh]|]. done.
    - exists Crashes. split; [apply syntax_crash; intros t Ht; congruence|done].
    - exists Crashes. split; [apply syntax_crash; intros t Ht; congruence|done].
    - exists Crashes. split; [apply syntax_crash; intros t Ht; congruence|done].
  Qed.

  Definition docs_functions : list string :=
    ["output-frame"; "syntax-hl"; "column-header"; "columns"; "lit-syntax"; "godoc"; "template-link"; "define"; "describe-fruit"].

  Lemma docs_comes self fn m x argv s : 0 < e_jumps E → fn ∈ docs_functions → tbl (method_name fn) = Some m →
    suits m argv → st_heap s !! self = Some x →
    ∃ o, docs (str E (st_heap s)) hl show self (s_invloc x) fn argv o ∧ ends o s (run_prog E rec self (m_body m self argv) s).
  Proof.
    intros Hj Hfn Hm Hs Hx. unfold docs_functions in Hfn.
    repeat (apply elem_of_cons in Hfn as [->|Hfn]); [..|by apply elem_of_nil in Hfn]; head_of Hm.
    - apply suits_1 in Hs as (v & -> & [url ->]). eexists. split; [constructor|]. eexists. split; [by left|done].
    - apply suits_1 in Hs as (v & -> & [c ->]). eexists. split; [constructor|]. eexists. split; [by left|done].
    - apply suits_1 in Hs as (v & -> & [c ->]). eexists. split; [constructor|]. eexists. split; [by left|done].
    - apply suits_1v in Hs as (v & b & -> & [c ->] & Hb). apply kinds_con in Hb as [cs ->]. eexists. split; [exact (do_columns _ _ _ _ _ c cs)|].
      cbn [m_body m_syntax m_columns m_lit_syntax m_godoc m_define m_describe_fruit]. change (con c :: map con cs) with (map con (c :: cs)). rewrite con_args_con. eexists. split; [by left|done].
    - apply suits_1 in Hs as (v & -> & [c ->]). cbn [m_body m_syntax m_columns m_lit_syntax m_godoc m_define m_describe_fruit]. unfold con. rewrite run_highlight. destruct (str E (st_heap s) c) as [t|e| |] eqn:Et.
      2-4: exists Crashes; split; [apply do_lit_crash; intros t Ht; congruence|done].
      destruct (hl "lit" None (is_flow c) t) as [html|e] eqn:Eh.
      + destruct (syntax_links self "lit" c html) as (parts & Hp & ->). eexists. split; [eapply do_lit; [econstructor; [exact Et|exact Eh]|exact Hp]|].
        eexists. split; [by right|done].
      + eexists. split; [eapply do_lit_failed; econstructor; [exact Et|exact Eh]|]. done.
    - apply suits_1 in Hs as (v & -> & [ref ->]). cbn [m_body m_syntax m_columns m_lit_syntax m_godoc m_define m_describe_fruit]. destruct (split_first "." ref) as [[a b]|] eqn:Er.
      + apply split_first_some in Er as [-> Ha]. destruct (trim_left_split "*" a) as (stars & H1 & H2 & H3). remember (trim_left "*" a) as pkg eqn:Ep. clear Ep. subst a.
        eexists. split; [rewrite sapp_assoc; apply (do_godoc _ _ _ _ _ stars pkg b); [done|done|]|].
        { intros Hi. apply Ha. rewrite ascii_app. apply elem_of_app. by right. }
        eexists. split; [right; reflexivity|]. cbn [run_prog]. by rewrite sapp_assoc.
      + eexists. split; [apply do_godoc_crash; by apply split_first_none|]. done.
    - apply suits_1 in Hs as (v & -> & [t ->]). eexists. split; [constructor|]. eexists. split; [by right|done].
    - apply suits_2 in Hs as (v & w & -> & [nd ->] & [c ->]). cbn [m_body m_syntax m_columns m_lit_syntax m_godoc m_define m_describe_fruit]. unfold con.
      assert ((∃ f args l rest, nd = NSeq (NInvoke f args l :: rest)) ∨ ∀ f args l rest, nd ≠ NSeq (NInvoke f args l :: rest)) as [(f & args & l & rest & ->)|Hn].
      { destruct nd as [u|[|[u|l1|ls|ls|f args l] l']|ls|ls|f args l]; try (by right). left. by eexists _, _, _, _. }
      2: { exists Crashes. split; [by apply do_define_crash|]. destruct nd as [u|[|[u|l1|ls|ls|f args l] l']|ls|ls|f args l]; try done. by destruct (Hn f args l l'). }
      rewrite run_highlight, str_string by done. cbn [is_flow]. destruct (hl "lit" None true ("\" +:+ f)) as [title|e] eqn:Et.
      2: { exists (Fails e). split; [by apply do_define_title|done]. }
      rewrite syntax_plain. pose proof (render_written show args) as Hr. destruct (render_args show args) as [t|].
      2: { exists Crashes. split; [by eapply do_define_args|done]. }
      rewrite run_highlight, str_string by done. cbn [is_flow]. destruct (hl "lit" None true ("\" +:+ f +:+ t)) as [html|e] eqn:Eh.
      2: { exists (Fails e). split; [by eapply do_define_thumb|done]. }
      destruct (syntax_both self "lit" (CString ("\" +:+ f +:+ t)) html) as (parts & Hp & ->). cbn [is_flow]. rewrite (run_getself _ _ _ _ Hx).
      eexists. split; [by eapply do_define|]. eexists. split; [by right|done].
    - apply suits_2v in Hs as (v & w & b & -> & [name ->] & [c ->] & Hb). apply kinds_str in Hb as [ss ->]. cbn [m_body m_syntax m_columns m_lit_syntax m_godoc m_define m_describe_fruit]. unfold con. rewrite str_args_map.
      destruct (String.eqb_spec name "") as [->|Hn]; [eexists; split; [apply do_fruit_blank|done]|]. rewrite (run_getself _ _ _ _ Hx).
      eexists. split; [by apply do_fruit|]. eexists. split; [by right|]. by destruct ss.
  Qed.
End Runs.

(** ** The specification determines the outcome *)

Lemma linked_det self html p p' : linked self html p → linked self html p' → p = p'.
Proof. intros [h ps H] H'. inversion H' as [h' ps' Hc]; subst. by rewrite (cuts_det _ _ _ _ _ link_finds H Hc). Qed.
Lemma shown_det self p cs cs' : part_shown self p cs → part_shown self p cs' → cs = cs'.
Proof.
  intros H H'. inversion H as [m|t qs Hc]; subst; inversion H' as [m'|t' qs' Hc']; subst; [done|]. by rewrite (cuts_det _ _ _ _ _ arg_finds Hc Hc').
Qed.
Lemma both_det self html p p' : linked_emphasized self html p → linked_emphasized self html p' → p = p'.
Proof.
  intros [h ps css H F] H'. inversion H' as [h' ps' css' Hc F']; subst. pose proof (cuts_det _ _ _ _ _ link_finds H Hc) as <-. f_equal.
  clear -F F'. revert css' F'. induction F as [|p cs ps css Hp F IH]; intros css' F'; inversion F' as [|? cs' ? css'' Hp' F'']; subst; [done|].
  by rewrite (shown_det _ _ _ _ Hp Hp'), (IH _ F'').
Qed.
Lemma written_det show args s s' : written_args show args s → written_args show args s' → s = s'.
Proof.
  intros H. revert s'. induction H as [|l ss args s F H IH]; intros s' H'; inversion H' as [|? ss' ? s0 F' H'']; subst; [done|].
  rewrite (IH _ H''). assert (ss = ss') as ->; [|done]. clear -F F'. revert ss' F'.
  induction F as [|nd t l ss Ht F IH]; intros ss' F'; inversion F' as [|? t' ? ss'' Ht' F'']; subst; [done|]. rewrite (IH _ F''). f_equal. destruct nd; congruence.
Qed.
Lemma split_first_at c a b : c ∉ list_ascii_of_string a → split_first c (a +:+ String c b) = Some (a, b).
Proof.
  induction a as [|d a IH]; cbn [list_ascii_of_string]; intros H.
  - cbn. by rewrite Ascii.eqb_refl.
  - apply not_elem_of_cons in H as [Hd H]. change (String d a +:+ String c b) with (String d (a +:+ String c b)). cbn [split_first].
    destruct (Ascii.eqb_spec d c) as [->|]; [done|]. by rewrite IH.
Qed.
Lemma trim_left_at c a b : Forall (λ d, d = c) (list_ascii_of_string a) → (∀ r, b ≠ String c r) → trim_left c (a +:+ b) = b.
Proof.
  intros Ha Hb. induction a as [|d a IH]; cbn [list_ascii_of_string] in Ha.
  - change ("" +:+ b) with b. destruct b as [|x b]; [done|]. cbn [trim_left]. destruct (Ascii.eqb_spec x c) as [->|]; [by destruct (Hb b)|done].
  - apply Forall_cons in Ha as [-> Ha]. change (String c a +:+ b) with (String c (a +:+ b)). cbn [trim_left]. rewrite Ascii.eqb_refl. by apply IH.
Qed.
Lemma godoc_split stars pkg name : Forall (λ c, c = "*"%char) (list_ascii_of_string stars) → (∀ r, pkg ≠ String "*" r) → "."%char ∉ list_ascii_of_string pkg →
  split_first "." (stars +:+ pkg +:+ "." +:+ name) = Some (stars +:+ pkg, name) ∧ trim_left "*" (stars +:+ pkg) = pkg.
Proof.
  intros H1 H2 H3. split; [|by apply trim_left_at]. rewrite <- sapp_assoc. change ("." +:+ name) with (String "." name). apply split_first_at.
  rewrite ascii_app. intros [H|H]%elem_of_app; [|done]. rewrite Forall_forall in H1. by apply H1 in H.
Qed.
Lemma map_str_inj ss ss' : map str_arg ss = map str_arg ss' → ss = ss'.
Proof. revert ss'. induction ss as [|x ss IH]; intros [|y ss'] E; try done. injection E as -> E. by rewrite (IH _ E). Qed.
Lemma map_con_inj cs cs' : map con_arg cs = map con_arg cs' → cs = cs'.
Proof. revert cs'. induction cs as [|x cs IH]; intros [|y cs'] E; try done. injection E as -> E. by rewrite (IH _ E). Qed.
Lemma lights_det text hl lang style c r r' : lights text hl lang style c r → lights text hl lang style c r' → r = r'.
Proof. intros [s r0 H1 H2] [s' r1 H1' H2']. congruence. Qed.
Lemma lights_readable text hl lang style c r : lights text hl lang style c r → ¬ unreadable text c.
Proof. intros [s r0 H1 _] H. by apply (H s). Qed.

Ltac mapinj := repeat match goal with
  | X : map _ _ = map _ _ |- _ => first [apply map_str_inj in X | apply map_con_inj in X]; subst
  end.
Lemma syntax_det text hl argv o o' : DocsSpec.syntax text hl argv o → DocsSpec.syntax text hl argv o' → o = o'.
Proof.
  assert (∀ lang c names o', DocsSpec.syntax text hl (str_arg lang :: con_arg c :: map str_arg names) o' →
    (∃ html, lights text hl lang (head names) c (inl html) ∧ o' = Gives (code lang (is_flow c) [raw html])) ∨
    (∃ e, lights text hl lang (head names) c (inr e) ∧ o' = Fails e) ∨ (unreadable text c ∧ o' = Crashes)) as Inv.
  { intros lang c names o1 H. inversion H; subst; mapinj; eauto 6. }
  intros H H'. inversion H as [lang c names html L|lang c names e L|lang c names U]; subst;
    apply Inv in H' as [(html' & L' & ->)|[(e' & L' & ->)|[U' ->]]]; try done;
    try (pose proof (lights_det _ _ _ _ _ _ _ L L'); congruence); 
    match goal with L : lights _ _ _ _ _ _, U : unreadable _ _ |- _ => destruct (lights_readable _ _ _ _ _ _ L U) end.
Qed.

Lemma docs_det text hl show self at_ fn argv o o' : docs text hl show self at_ fn argv o → docs text hl show self at_ fn argv o' → o = o'.
Proof.
  intros H H'. destruct H.
  - by inversion H'; subst.
  - by inversion H'; subst.
  - by inversion H'; subst.
  - inversion H'; subst; by mapinj.
  - inversion H' as [| | | |? html' parts' L' K|? ? L'|? U'| | | | | | | | | |]; subst.
    + pose proof (lights_det _ _ _ _ _ _ _ H L') as [= <-]. by rewrite (linked_det _ _ _ _ H0 K).
    + pose proof (lights_det _ _ _ _ _ _ _ H L'). done.
    + destruct (lights_readable _ _ _ _ _ _ H U').
  - inversion H' as [| | | |? html' parts' L' K|? ? L'|? U'| | | | | | | | | |]; subst.
    + pose proof (lights_det _ _ _ _ _ _ _ H L'). done.
    + pose proof (lights_det _ _ _ _ _ _ _ H L'). congruence.
    + destruct (lights_readable _ _ _ _ _ _ H U').
  - inversion H' as [| | | |? html' parts' L' K|? ? L'|? U'| | | | | | | | | |]; subst; [| |done].
    + destruct (lights_readable _ _ _ _ _ _ L' H).
    + destruct (lights_readable _ _ _ _ _ _ L' H).
  - destruct (godoc_split stars pkg name H H0 H1) as [S1 S2].
    inversion H' as [| | | | | | |stars' pkg' name' G1 G2 G3|? G| | | | | | | |]; subst.
    + destruct (godoc_split stars' pkg' name' G1 G2 G3) as [S1' S2'].
      assert (stars' +:+ pkg' +:+ "." +:+ name' = stars +:+ pkg +:+ "." +:+ name) as E by done. rewrite E, S1 in S1'. injection S1' as Ea ->.
      rewrite <- !(sapp_assoc stars), <- !(sapp_assoc stars'), Ea. do 3 f_equal. rewrite Ea, S2' in S2. by subst.
    + destruct G. rewrite !ascii_app, !elem_of_app. right. right. by left.
  - inversion H' as [| | | | | | |stars' pkg' name' G1 G2 G3|? G| | | | | | | |]; subst; [|done].
    destruct H. rewrite !ascii_app, !elem_of_app. right. right. by left.
  - by inversion H'; subst.
  - inversion H' as [| | | | | | | | | |? ? ? ? ? t' s' h' p' A B C D|? ? ? ? ? e' A|? ? ? ? ? t' s' e' A B C|? ? A|? ? ? ? ? t' A B| |]; subst; try congruence.
    + assert (t' = title) as -> by congruence. pose proof (written_det _ _ _ _ H0 B) as <-. assert (h' = html) as -> by congruence. by rewrite (both_det _ _ _ _ H2 D).
    + pose proof (written_det _ _ _ _ H0 B) as <-. congruence.
    + by destruct (A fn args l rest).
    + by destruct (B s).
  - inversion H' as [| | | | | | | | | |? ? ? ? ? t' s' h' p' A B C D|? ? ? ? ? e' A|? ? ? ? ? t' s' e' A B C|? ? A|? ? ? ? ? t' A B| |]; subst; try congruence.
    by destruct (A fn args l rest).
  - inversion H' as [| | | | | | | | | |? ? ? ? ? t' s' h' p' A B C D|? ? ? ? ? e' A|? ? ? ? ? t' s' e' A B C|? ? A|? ? ? ? ? t' A B| |]; subst; try congruence.
    + pose proof (written_det _ _ _ _ H0 B) as <-. congruence.
    + pose proof (written_det _ _ _ _ H0 B) as <-. congruence.
    + by destruct (A fn args l rest).
    + by destruct (B s).
  - inversion H' as [| | | | | | | | | |? ? ? ? ? t' s' h' p' A B C D|? ? ? ? ? e' A|? ? ? ? ? t' s' e' A B C|? ? A|? ? ? ? ? t' A B| |]; subst; try congruence;
      by edestruct H.
  - inversion H' as [| | | | | | | | | |? ? ? ? ? t' s' h' p' A B C D|? ? ? ? ? e' A|? ? ? ? ? t' s' e' A B C|? ? A|? ? ? ? ? t' A B| |]; subst; try congruence.
    + by destruct (H0 s').
    + by destruct (H0 s').
  - inversion H'; subst; mapinj; done.
  - inversion H'; subst; done.
Qed.
