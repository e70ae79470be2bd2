(** C79: template files. Which templates the files of a directory put in the place
    of the bundled ones (TmplFiles.v). *)
From Coq Require Import Ascii String Lia ZArith.
From stdpp Require Import base tactics functions strings list.
From Verif Require Import GoBase StrProofs Content Section Render Html Templates Tmpl TmplEsc TmplExec TmplBundled TmplWritten TmplReads TmplFiles TmplFilesProofs Props_TmplText.
Local Open Scope string_scope. Local Open Scope list_scope.

(** Files that can be read and are written as they should be are all taken. A
    template is then the last body a file has for its name that is not blank, or
    else what it was. *)
Theorem files_templates d old : (∀ f, f ∈ d → proper f) →
  ∃ s, add_files parse_file empty_tree d old = (s, true) ∧ ∀ n, ∃ bs, given n d bs ∧ stays (old n) bs (s n).
Proof. apply add_files_stays. Qed.
Print Assumptions files_templates.

(** There is no choice in that. *)
Theorem files_determined n d old bs bs' r r' : given n d bs → given n d bs' → stays old bs r → stays old bs' r' → bs = bs' ∧ r = r'.
Proof. intros H H' Hr Hr'. assert (bs' = bs) as -> by (by eapply given_unique). split; [done|]. by eapply stays_unique. Qed.
Print Assumptions files_determined.

(** A new engine that loads the directory. *)
Theorem engine_files bundled d : (∀ f, f ∈ d → proper f ∧ f_stat f ≠ None) →
  ∃ e, load parse_file empty_tree bundled d (new_engine bundled) = (e, true) ∧
    ∀ n, ∃ bs, given n d bs ∧ stays (bundled n) bs (e_tmpl e n).
Proof.
  intros H. destruct (files_templates d bundled) as (s & Hs & K); [intros f Hf; by apply H|].
  assert (∀ d times r, (∀ f : file string, f ∈ d → f_stat f ≠ None) → ∃ times' r', check d times r = (times', Some r') ∧ (r = true → r' = true)) as C.
  { clear. induction d as [|f d IH]; intros times r H; [by exists times, r|]. cbn [check]. destruct (f_stat f) as [t|] eqn:E; [|by destruct (H f ltac:(left))].
    destruct (IH (<[f_name f:=Some t]> times) (r || match times (f_name f) with None => true | Some t' => (t' <? t)%Z end)) as (times' & r' & C & Hr);
      [intros g Hg; apply H; by right|]. exists times', r'. split; [done|]. intros ->. by apply Hr. }
  unfold load, new_engine. cbn [e_times e_tmpl]. destruct d as [|f d].
  { eexists. split; [reflexivity|]. cbn [e_tmpl]. injection Hs as <-. exact K. }
  cbn [check]. destruct (f_stat f) as [t|] eqn:E; [|by destruct (proj2 (H f ltac:(left)))]. cbn [orb].
  destruct (C d (<[f_name f:=Some t]> (λ _, None)) true) as (times' & r' & -> & Hr); [intros g Hg; apply H; by right|]. rewrite (Hr eq_refl), Hs.
  eexists. split; [reflexivity|]. exact K.
Qed.
Print Assumptions engine_files.

(** A file with two bodies for a name is not taken, nor is one that cannot be read. *)
Theorem files_refused d f old : f ∈ d →
  f_read f = None ∨ (∃ c u ns ds n, f_read f = Some c ∧ without_end c u ∧ template_text ns ds u ∧ twice (bodies n (ds ++ [(f_name f, ns)]))) →
  (add_files parse_file empty_tree d old).2 = false.
Proof.
  intros Hf H. revert old. induction d as [|g d IH]; [by apply elem_of_nil in Hf|]. intros old. cbn [add_files]. apply elem_of_cons in Hf as [<-|Hf].
  - destruct H as [->|(c & u & ns & ds & n & -> & Hu & Ht & Hn)]; [done|]. cbn [base.mbind option_bind]. unfold add_text.
    by rewrite (parse_file_twice _ _ _ _ _ _ Hu Ht Hn).
  - destruct (_ ≫= _); [by apply IH|done].
Qed.
Print Assumptions files_refused.

(** ** Examples *)

Definition files : dir string :=
  [File "bold.tmpl" (Some 1%Z) (Some (" " +:+ String nl ""));
   File "italic.tmpl" (Some 1%Z) (Some ("<i>{{render .}}</i>" +:+ String nl (String nl "")));
   File "other.tmpl" (Some 1%Z) (Some "{{define ""italic.tmpl""}} {{end}}{{define ""mine""}}M{{end}}{{define ""inset.tmpl""}}I{{end}}")].
Definition own_italic : list node := [NText "<i>"; NAct XRaw [[OFunc "render"; ODot]]; NText "</i>"].

Lemma plain_text s : split_open s = (s, None) → s ≠ "" → template_text [NText s] [] s.
Proof.
  intros H N. exists [IText s]. split.
  - pose proof (w_last false s s (no_action_split _ H) (cut_none s)) as K. by destruct s.
  - exact (w_file_node _ [_] _ _ [] (w_text s) w_file_nil).
Qed.
Example italic_text : template_text own_italic [] "<i>{{render .}}</i>".
Proof.
  exists [IText "<i>"; IAct [KId "render"; KSpace; KDot]; IText "</i>"]. split; [source|].
  refine (w_file_node _ [_] _ _ _ (w_text "<i>") _). refine (w_file_node _ [_] _ _ [_] (w_act _ _ (one_command _ _ _ _)) _).
  - refine (w_cmd_more _ [KId "render"] [KSpace] _ [KDot] (w_ofunc "render" _ _) _ one_space (w_cmd_one _ _ w_odot)); [by apply notin|by apply notin|done].
  - exact (w_file_node _ [_] _ _ [] (w_text "</i>") w_file_nil).
Qed.
Definition other_defs : list (string * list node) := [("italic.tmpl", [NText " "]); ("mine", [NText "M"]); ("inset.tmpl", [NText "I"])].
Definition define_items (n s : string) : list item := [IAct [KId "define"; KSpace; KStr n]; IText s; IAct [KId "end"]].
Example other_text : template_text [] other_defs "{{define ""italic.tmpl""}} {{end}}{{define ""mine""}}M{{end}}{{define ""inset.tmpl""}}I{{end}}".
Proof.
  exists (define_items "italic.tmpl" " " ++ define_items "mine" "M" ++ define_items "inset.tmpl" "I"). split; [vm_compute app; source|].
  refine (w_file_def [] [KSpace] "italic.tmpl" [] _ [IText " "] [KId "end"] _ _ _ no_space one_space no_space (w_nodes_cons _ [_] _ [] (w_text _) w_nodes_nil) (only_one "end") _).
  refine (w_file_def [] [KSpace] "mine" [] _ [IText "M"] [KId "end"] _ _ _ no_space one_space no_space (w_nodes_cons _ [_] _ [] (w_text _) w_nodes_nil) (only_one "end") _).
  exact (w_file_def [] [KSpace] "inset.tmpl" [] _ [IText "I"] [KId "end"] _ _ _ no_space one_space no_space (w_nodes_cons _ [_] _ [] (w_text _) w_nodes_nil) (only_one "end") w_file_nil).
Qed.
Lemma once_bodies l : NoDup (map fst l) → ∀ n, ¬ twice (bodies n l).
Proof.
  intros N n (a & t & b & u & c & E & _). revert a E. induction l as [|[m v] l IH]; intros a E; [by destruct a|]. apply NoDup_cons in N as [Nm N].
  unfold bodies in E. cbn [omap list_omap fst snd] in E. destruct (String.eqb_spec m n) as [->|]; [|by eapply IH].
  assert (u ∈ bodies n l) as Hu.
  { unfold bodies. destruct a as [|x a]; injection E as _ E; rewrite E; [|apply elem_of_app; right; right]; apply elem_of_app; right; left. }
  apply Nm. apply bodies_in in Hu. apply elem_of_list_fmap. by exists (n, u).
Qed.
Example files_proper : ∀ f, f ∈ files → proper f.
Proof.
  intros f Hf. apply elem_of_cons in Hf as [->|Hf]; [|apply elem_of_cons in Hf as [->|Hf]; [|apply elem_of_list_singleton in Hf as ->]].
  - exists (" " +:+ String nl ""), " ", [NText " "], []. split_and!; [done|exact (trim_without_end (" " +:+ String nl ""))|by apply plain_text|].
    apply once_bodies. apply (bool_decide_unpack _). vm_compute. exact I.
  - eexists _, _, own_italic, []. split_and!; [done|exact (trim_without_end ("<i>{{render .}}</i>" +:+ String nl (String nl "")))|exact italic_text|].
    apply once_bodies. apply (bool_decide_unpack _). vm_compute. exact I.
  - eexists _, _, [], other_defs. split_and!; [done|exact (trim_without_end "{{define ""italic.tmpl""}} {{end}}{{define ""mine""}}M{{end}}{{define ""inset.tmpl""}}I{{end}}")|exact other_text|].
    apply once_bodies. apply (bool_decide_unpack _). vm_compute. exact I.
Qed.
(** What comes out: the blank [bold.tmpl] leaves the bundled one, [italic.tmpl] is
    the one of the file (not the blank one defined later), [inset.tmpl] is the one
    defined in another file. *)
Definition files_made : bool :=
  let '(s, ok) := add_files parse_file empty_tree files bundled_html in
  ok && bool_decide (is_Some (s "bold.tmpl")) &&
  match s "italic.tmpl", s "inset.tmpl", s "mine", s "other.tmpl" with
  | Some [NText "<i>"; _; NText "</i>"], Some [NText "I"], Some [NText "M"], Some [] => true
  | _, _, _, _ => false
  end.
Example files_loaded : files_made = true.
Proof. vm_compute. reflexivity. Qed.
Example two_bodies : parse_file "a.tmpl" "{{define ""a.tmpl""}}x{{end}}y" = None ∧
  parse_file "a.tmpl" "{{define ""a.tmpl""}}x{{end}} " = Some [("a.tmpl", [NText "x"])].
Proof. vm_compute. split; reflexivity. Qed.
