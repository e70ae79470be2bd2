(** A concrete section tree, used to show that the theorems' hypotheses are met by
    non-trivial states. *)
From Coq Require Import Ascii String.
From stdpp Require Import base list strings relations tactics.
From Verif Require Import GoBase Ast Content Section TreeSpec TagProofs QueryProofs Render RenderSpec WriterProofs.

(** Boolean version of [wf]. *)
Definition wfb (h : heap) : bool :=
  forallb (λ i, match h !! i with
    | None => true
    | Some s =>
      (match s_parent s with Some p => Nat.ltb p i | None => true end) &&
      forallb (λ c, match h !! c with
                    | Some cs => match s_parent cs with Some p => Nat.eqb p i | None => false end
                    | None => false end) (s_children s) &&
      bool_decide (NoDup (s_children s))
    end) (seq 0 (length h)).

Lemma wfb_wf h : wfb h = true → wf h.
Proof.
  intros H. unfold wfb in H. rewrite forallb_forall in H.
  assert (∀ i s, h !! i = Some s →
     (match s_parent s with Some p => Nat.ltb p i | None => true end) = true ∧
      forallb (λ c, match h !! c with
                    | Some cs => match s_parent cs with Some p => Nat.eqb p i | None => false end
                    | None => false end) (s_children s) = true ∧
      NoDup (s_children s)) as Hi.
  { intros i s Hs. specialize (H i). rewrite Hs in H.
    rewrite !andb_true_iff, bool_decide_eq_true in H.
    assert (In i (seq 0 (length h))) as Hin.
    { apply in_seq. apply lookup_lt_Some in Hs. lia. }
    apply H in Hin. tauto. }
  constructor.
  - intros i s p Hs Hp. destruct (Hi _ _ Hs) as (H1 & _). rewrite Hp in H1. by apply Nat.ltb_lt.
  - intros p s c Hs Hc. destruct (Hi _ _ Hs) as (_ & H2 & _). rewrite forallb_forall in H2.
    apply elem_of_list_In, H2 in Hc. destruct (h !! c) as [cs|]; [|done]. exists cs. split; [done|].
    destruct (s_parent cs) as [q|]; [|done]. apply Nat.eqb_eq in Hc. by subst.
  - intros p s Hs. apply Hi in Hs. tauto.
Qed.

Definition mk (i : nat) (parent : option nat) (children : list nat) (path name : string)
    (split prevent reset : bool) (extra : list tag) : section :=
  let t := Tag name (Some (CString name)) (Some i) "" None loc0 in
  Section path (CString name) (CPara [CString "body of "; CString name]) (Loc 1 1 0) t (t :: extra) parent children
    "" [] split prevent reset false [FBase] loc0 loc0.

(** 0 index.lit (splits)
    ├ 1 intro   (inline section, not splitting)
    │ ├ 2 why   (anchored target "faq")
    │ └ 3 how
    └ 4 ref.lit (splits)
      └ 5 api   (a second definition of "faq")  *)
Definition demo : heap :=
  [ mk 0 None [1; 4] "/b/index.lit" "index" true false true [];
    mk 1 (Some 0) [2; 3] "" "intro" false false false [];
    mk 2 (Some 1) [] "" "why" false false false
      [Tag "faq" (Some (CString "FAQ")) (Some 2) "faq" (Some (CString "questions")) (Loc 7 1 60)];
    mk 3 (Some 1) [] "" "how" false false false [];
    mk 4 (Some 0) [5] "/b/r/ref.lit" "ref" true false true [];
    mk 5 (Some 4) [] "" "api" false false false
      [Tag "faq" (Some (CString "API FAQ")) (Some 5) "faq" None (Loc 3 2 20)] ].

Lemma demo_wf : wf demo.
Proof. apply wfb_wf. vm_compute. reflexivity. Qed.

Lemma demo_owned : tags_owned demo.
Proof.
  intros x s t Hx Ht. do 6 (destruct x as [|x]; [injection Hx as <-; simpl in Ht;
    rewrite ?elem_of_cons, ?elem_of_nil in Ht; naive_solver|]). done.
Qed.

Lemma demo_top : is_top demo 0.
Proof. eexists. split; reflexivity. Qed.

Ltac desc_step := eapply rtc_l; [eexists; split; [reflexivity|]; simpl;
  rewrite ?elem_of_cons; tauto|].

Lemma demo_desc x : x < 6 → descendant demo 0 x.
Proof.
  assert (∀ p c, (∃ s, demo !! p = Some s ∧ existsb (Nat.eqb c) (s_children s) = true) → child_of demo p c) as H.
  { intros p c (s & Hs & He). exists s. split; [done|]. apply existsb_exists in He as (y & Hy & E).
    apply Nat.eqb_eq in E as ->. by apply elem_of_list_In. }
  assert (child_of demo 0 1) by (apply H; eexists; split; reflexivity).
  assert (child_of demo 0 4) by (apply H; eexists; split; reflexivity).
  assert (child_of demo 1 2) by (apply H; eexists; split; reflexivity).
  assert (child_of demo 1 3) by (apply H; eexists; split; reflexivity).
  assert (child_of demo 4 5) by (apply H; eexists; split; reflexivity).
  intros Hx. unfold descendant.
  destruct x as [|[|[|[|[|[|x]]]]]]; [constructor|..|lia]; eauto using rtc_once, rtc_l.
Qed.

Lemma demo_listing : listing demo (λ _, true) 0 [0; 1; 2; 3; 4; 5].
Proof.
  econstructor; [reflexivity|]. simpl.
  apply (listings_cons _ _ _ _ [1; 2; 3] [4; 5]).
  - econstructor; [reflexivity|]. simpl. apply (listings_cons _ _ _ _ [2] [3]).
    + econstructor; [reflexivity|constructor].
    + apply (listings_cons _ _ _ _ [3] []); [|constructor]. econstructor; [reflexivity|constructor].
  - apply (listings_cons _ _ _ _ [4; 5] []); [|constructor].
    econstructor; [reflexivity|]. simpl. apply (listings_cons _ _ _ _ [5] []); [|constructor].
    econstructor; [reflexivity|constructor].
Qed.

Lemma demo_split_listing : listing demo s_split 0 [0; 1; 4; 5].
Proof.
  econstructor; [reflexivity|]. simpl.
  apply (listings_cons _ _ _ _ [1] [4; 5]).
  - econstructor; [reflexivity|constructor].
  - apply (listings_cons _ _ _ _ [4; 5] []); [|constructor].
    econstructor; [reflexivity|]. simpl. apply (listings_cons _ _ _ _ [5] []); [|constructor].
    econstructor; [reflexivity|constructor].
Qed.

(** Two split children with the same primary tag. *)
Definition clash : heap :=
  [ mk 0 None [1; 2] "/b/index.lit" "index" true false true [];
    mk 1 (Some 0) [] "" "same" false false false [];
    mk 2 (Some 0) [] "" "same" false false false [] ].

Lemma overwrite_witness : ∃ h r i j, wf h ∧ is_top h r ∧
  is_page h i ∧ is_page h j ∧ i ≠ j ∧ descendant h r i ∧ descendant h r j ∧
  ∀ eng fs, (∀ k, snd (eng k) = None) →
   ∃ fs', write_section h (λ _, true) "html" eng r fs = Some (fs', None) ∧
     assoc_get (file_of h "html" i) fs' = Some (fst (eng j)).
Proof.
  exists clash, 0, 1, 2. assert (wf clash) as W by (apply wfb_wf; vm_compute; reflexivity).
  assert (pages_of clash 0 [0; 1; 2]) as P.
  { exists [0; 1; 2]. split; [|reflexivity]. econstructor; [reflexivity|]. simpl.
    apply (listings_cons _ _ _ _ [1] [2]); [econstructor; [reflexivity|constructor]|].
    apply (listings_cons _ _ _ _ [2] []); [econstructor; [reflexivity|constructor]|constructor]. }
  assert (∀ x, x ∈ [0; 1; 2] → is_page clash x ∧ descendant clash 0 x) as Hp.
  { intros x Hx. by apply (pages_of_elem _ _ _ _ P). }
  split; [done|]. split; [eexists; split; reflexivity|].
  split; [apply Hp; set_solver|]. split; [apply Hp; set_solver|]. split; [done|].
  split; [apply Hp; set_solver|]. split; [apply Hp; set_solver|].
  intros eng fs He. rewrite (write_section_spec _ _ _ _ _ _ _ W P). simpl. rewrite !He.
  eexists. split; [reflexivity|]. rewrite assoc_get_set. reflexivity.
Qed.
