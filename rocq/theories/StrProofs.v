(** Lemmas about the string helpers of GoBase.v. *)
From Coq Require Import Ascii String Lia Decimal DecimalString DecimalNat.
From stdpp Require Import base list strings tactics.
From Verif Require Import GoBase.
Local Open Scope string_scope.

Lemma sapp_nil_r (s : string) : s +:+ "" = s.
Proof. induction s as [|c s IH]; simpl; [done|by rewrite IH]. Qed.
Lemma sapp_nil_l (s : string) : "" +:+ s = s.
Proof. done. Qed.
Lemma sapp_cons c (a b : string) : String c a +:+ b = String c (a +:+ b).
Proof. done. Qed.
Lemma sapp_assoc (a b c : string) : (a +:+ b) +:+ c = a +:+ (b +:+ c).
Proof. induction a as [|x a IH]; simpl; [done|by rewrite <- IH]. Qed.
Lemma sapp_inj_l (a b c : string) : a +:+ b = a +:+ c → b = c.
Proof. induction a as [|x a IH]; simpl; [done|]. intros [= ?]. auto. Qed.
Lemma slength_app (a b : string) : String.length (a +:+ b) = String.length a + String.length b.
Proof. induction a as [|x a IH]; simpl; [done|]. by rewrite <- IH. Qed.
Lemma sapp_eq_nil (a b : string) : a +:+ b = "" → a = "" ∧ b = "".
Proof. destruct a; simpl; [done|discriminate]. Qed.
Lemma sapp_inj_r (a b c : string) : a +:+ c = b +:+ c → a = b.
Proof.
  revert b. induction a as [|x a IH]; intros [|y b] H; simpl in *; [done| | |].
  - apply (f_equal String.length) in H. simpl in H. rewrite slength_app in H. lia.
  - apply (f_equal String.length) in H. simpl in H. rewrite slength_app in H. lia.
  - injection H as -> H. f_equal. auto.
Qed.

Lemma sforall_app p (a b : string) : sforall p (a +:+ b) = sforall p a && sforall p b.
Proof. induction a as [|x a IH]; simpl; [done|]. rewrite IH. by rewrite andb_assoc. Qed.

Lemma sforall_impl (p q : ascii → bool) s :
  (∀ c, p c = true → q c = true) → sforall p s = true → sforall q s = true.
Proof.
  intros Hpq. induction s as [|c s IH]; simpl; [done|].
  rewrite !andb_true_iff. naive_solver.
Qed.

Lemma sforall_sfilter p s : sforall p (sfilter p s) = true.
Proof. induction s as [|c s IH]; simpl; [done|]. destruct (p c) eqn:E; simpl; [by rewrite E|done]. Qed.

Lemma sforall_sfilter_id p s : sforall p s = true → sfilter p s = s.
Proof.
  induction s as [|c s IH]; simpl; [done|]. rewrite andb_true_iff. intros [-> H]. by rewrite IH.
Qed.

Lemma sfilter_app p a b : sfilter p (a +:+ b) = sfilter p a +:+ sfilter p b.
Proof. induction a as [|c a IH]; simpl; [done|]. destruct (p c); simpl; by rewrite IH. Qed.

Lemma sforall_smap p f s : sforall p (smap f s) = sforall (λ c, p (f c)) s.
Proof. induction s as [|c s IH]; simpl; [done|]. by rewrite IH. Qed.

Lemma smap_app f a b : smap f (a +:+ b) = smap f a +:+ smap f b.
Proof. induction a as [|c a IH]; simpl; [done|]. by rewrite IH. Qed.

Lemma smap_sfilter_comm f p s : (∀ c, p (f c) = p c) → smap f (sfilter p s) = sfilter p (smap f s).
Proof.
  intros H. induction s as [|c s IH]; simpl; [done|]. rewrite H. destruct (p c); simpl; by rewrite IH.
Qed.

Lemma sconcat_app l1 l2 : sconcat (l1 ++ l2) = sconcat l1 +:+ sconcat l2.
Proof. induction l1 as [|x l1 IH]; simpl; [done|]. by rewrite IH, sapp_assoc. Qed.

Lemma stake_length s : stake (String.length s) s = s.
Proof. induction s; simpl; [done|]. by f_equal. Qed.
Lemma stake_app a b : stake (String.length a) (a +:+ b) = a.
Proof. induction a; simpl; [by destruct b|]. by f_equal. Qed.
Lemma sdrop_app a b : sdrop (String.length a) (a +:+ b) = b.
Proof. induction a; simpl; [by destruct b|]. done. Qed.
Lemma stake_sdrop n s : stake n s +:+ sdrop n s = s.
Proof. revert s. induction n as [|n IH]; intros [|c s]; simpl; try done. by rewrite IH. Qed.
Lemma stake_le_length n s : n ≤ String.length s → String.length (stake n s) = n.
Proof. revert s. induction n as [|n IH]; intros [|c s] H; simpl in *; try lia. rewrite IH; lia. Qed.

Lemma has_prefix_app p s : has_prefix p (p +:+ s) = true.
Proof. induction p as [|c p IH]; simpl; [done|]. by rewrite Ascii.eqb_refl. Qed.
Lemma has_prefix_spec p s : has_prefix p s = true ↔ ∃ r, s = p +:+ r.
Proof.
  split; [|intros [r ->]; apply has_prefix_app].
  revert s. induction p as [|c p IH]; intros s H; simpl in *; [by exists s|].
  destruct s as [|d s]; [done|]. apply andb_true_iff in H as [E H].
  apply Ascii.eqb_eq in E as ->. destruct (IH _ H) as [r ->]. by exists r.
Qed.

Lemma has_suffix_app p s : has_suffix s (p +:+ s) = true.
Proof.
  unfold has_suffix. rewrite slength_app.
  replace (String.length p + String.length s - String.length s) with (String.length p) by lia.
  rewrite sdrop_app, String.eqb_refl, andb_true_r. apply Nat.leb_le. lia.
Qed.
Lemma trim_suffix_app p s : trim_suffix s (p +:+ s) = p.
Proof.
  unfold trim_suffix. rewrite has_suffix_app, slength_app.
  replace (String.length p + String.length s - String.length s) with (String.length p) by lia.
  apply stake_app.
Qed.
Lemma has_suffix_spec suf s : has_suffix suf s = true ↔ ∃ p, s = p +:+ suf.
Proof.
  split; [|intros [p ->]; apply has_suffix_app].
  unfold has_suffix. rewrite andb_true_iff. intros [_ E]. apply String.eqb_eq in E.
  exists (stake (String.length s - String.length suf) s).
  rewrite <- E at 2. by rewrite stake_sdrop.
Qed.
Lemma trim_prefix_app p s : trim_prefix p (p +:+ s) = s.
Proof. unfold trim_prefix. by rewrite has_prefix_app, sdrop_app. Qed.

(** ** Splitting and joining *)

Lemma ssplit_not_nil sep s : ssplit sep s ≠ [].
Proof.
  destruct s as [|c s]; simpl; [done|]. destruct (Ascii.eqb c sep); [done|].
  by destruct (ssplit sep s).
Qed.

Definition no_char (sep : ascii) (s : string) : bool := sforall (λ c, negb (Ascii.eqb c sep)) s.

Lemma ssplit_no_char sep s : no_char sep s = true → ssplit sep s = [s].
Proof.
  unfold no_char. induction s as [|c s IH]; simpl; [done|].
  rewrite andb_true_iff, negb_true_iff. intros [-> H]. by rewrite IH.
Qed.

Lemma ssplit_app_sep sep a b : no_char sep a = true →
  ssplit sep (a +:+ String sep b) = a :: ssplit sep b.
Proof.
  unfold no_char. induction a as [|c a IH]; simpl.
  - by rewrite Ascii.eqb_refl.
  - rewrite andb_true_iff, negb_true_iff. intros [-> H]. by rewrite IH.
Qed.

Lemma sjoin_cons sep x y l : sjoin sep (x :: y :: l) = x +:+ sep +:+ sjoin sep (y :: l).
Proof. done. Qed.

Lemma ssplit_sjoin sep l : l ≠ [] → Forall (λ s, no_char sep s = true) l →
  ssplit sep (sjoin (String sep "") l) = l.
Proof.
  intros Hne H. induction H as [|x l Hx H IH]; [done|].
  destruct l as [|y l]; [by apply ssplit_no_char|].
  rewrite sjoin_cons. simpl. rewrite ssplit_app_sep by done. f_equal. by apply IH.
Qed.

Lemma sjoin_ssplit sep s : sjoin (String sep "") (ssplit sep s) = s.
Proof.
  induction s as [|c s IH]; simpl; [done|]. destruct (Ascii.eqb_spec c sep) as [->|Hne].
  - destruct (ssplit sep s) eqn:E; [by apply ssplit_not_nil in E|].
    rewrite sjoin_cons, IH. done.
  - destruct (ssplit sep s) as [|w [|w' ws]] eqn:E; [by apply ssplit_not_nil in E| |].
    + simpl in *. by rewrite IH.
    + rewrite sjoin_cons in IH |- *. rewrite sapp_cons. by rewrite IH.
Qed.

Lemma ssplit_forall_no_char sep s : Forall (λ w, no_char sep w = true) (ssplit sep s).
Proof.
  induction s as [|c s IH]; simpl; [by repeat constructor|].
  destruct (Ascii.eqb c sep) eqn:E; [by constructor|].
  destruct (ssplit sep s) as [|w ws]; inversion IH; subst; repeat constructor; try done;
    unfold no_char in *; simpl; by rewrite E.
Qed.

Lemma sjoin_snoc sep l x :
  sjoin sep (l ++ [x])%list = match l with [] => x | _ => sjoin sep l +:+ sep +:+ x end.
Proof.
  induction l as [|y l IH]; [done|].
  destruct l as [|z l]; [done|].
  change ((y :: z :: l) ++ [x])%list with (y :: z :: (l ++ [x]))%list.
  rewrite !sjoin_cons. change (z :: (l ++ [x]))%list with ((z :: l) ++ [x])%list.
  rewrite IH, !sapp_assoc. done.
Qed.

(** ** Decimal numbers *)

Lemma to_uint_nonnil n : Nat.to_uint n ≠ Nil.
Proof.
  rewrite <- (Unsigned.of_to n), Unsigned.to_of. unfold unorm.
  destruct (nzhead _); done.
Qed.

Lemma dec_inj m n : dec m = dec n → m = n.
Proof.
  unfold dec. intros H. apply (f_equal NilZero.uint_of_string) in H.
  rewrite !NilZero.usu in H by apply to_uint_nonnil.
  injection H as H. by apply Unsigned.to_uint_inj.
Qed.

Lemma nilempty_digits d : sforall is_digit (NilEmpty.string_of_uint d) = true.
Proof. induction d; simpl; by rewrite ?IHd. Qed.

Lemma dec_digits n : sforall is_digit (dec n) = true.
Proof.
  unfold dec, NilZero.string_of_uint. destruct (Nat.to_uint n); [done|..]; apply nilempty_digits.
Qed.

Lemma dec_nonempty n : dec n ≠ "".
Proof.
  unfold dec. destruct (Nat.to_uint n) eqn:E; try discriminate.
Qed.

Lemma dec_no_dot n : no_char "." (dec n) = true.
Proof.
  apply (sforall_impl is_digit); [|apply dec_digits].
  intros c Hc. apply negb_true_iff. destruct (Ascii.eqb_spec c "."); [by subst|done].
Qed.
