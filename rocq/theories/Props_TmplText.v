(** C77: the template language. What the text of a template is read as (TmplWritten.v),
    and what it means (TmplMeaning.v). *)
From Coq Require Import Ascii String Lia.
From stdpp Require Import base tactics strings list.
From Verif Require Import GoBase StrProofs Content Section Render Html Templates Tmpl TmplEsc TmplExec TmplParseProofs TmplWritten TmplReads TmplMeaning TmplMeaningProofs TmplFiles TmplFilesProofs.
Local Open Scope string_scope. Local Open Scope list_scope.

(** A text written as the documentation says is read as what it is the text of: the
    templates it defines are its own body and its definitions, where bodies of only
    blanks do not count. *)
Theorem template_text_reads nm ns ds s : template_text ns ds s →
  (∀ ts, parse nm s = Some ts → NoDup ts.*1 ∧ ∀ n t, (n, t) ∈ ts ↔ taken (bodies n (ds ++ [(nm, ns)])) t) ∧
  (parse nm s = None ↔ ∃ n, twice (bodies n (ds ++ [(nm, ns)]))).
Proof. apply parse_taken. Qed.
Print Assumptions template_text_reads.

(** So no text can be taken in two ways. *)
Theorem template_text_unambiguous ns ds ns' ds' s : template_text ns ds s → template_text ns' ds' s → ns = ns' ∧ ds = ds'.
Proof.
  intros H H'. apply (template_reads "") in H. apply (template_reads "") in H'. rewrite H in H'. injection H' as H'.
  apply app_inj_tail in H' as [-> H']. by injection H' as ->.
Qed.
Print Assumptions template_text_unambiguous.

(** Executing a template gives a text exactly if it means that text. *)
Theorem template_executes similar broken h str ext html render call t data s :
  exec similar broken h str ext html render call t data = Ok s ↔
  template_gives (λ v f args w, member similar broken h str v f args = Ok w)
                 (λ f args w, apply_func h str ext html render f args = Ok w)
                 (λ x v s, put str html x v = Ok s) (λ n v s, call n v = Ok s) t data s.
Proof. apply exec_means. Qed.
Print Assumptions template_executes.

(** In an engine: [template] executes the other templates of the engine, [render]
    what is rendered by it; in HTML the template is the one with escapers put in. *)
Theorem engine_executes similar broken h force str ext (html : bool) (tmpls : string → option (list node)) n name (t t' : list node) data s :
  tmpls name = Some t → (if html then esc_tree t else Some t) = Some t' →
  run similar broken h force str ext html tmpls (S n) (TExec name data) = Ok s ↔
  template_gives (λ v f args w, member similar broken h str v f args = Ok w)
                 (λ f args w, apply_func h str ext html (λ c, run similar broken h force str ext html tmpls n (TRender c)) f args = Ok w)
                 (λ x v s, put str html x v = Ok s)
                 (λ m v s, run similar broken h force str ext html tmpls n (TExec m v) = Ok s) t' data s.
Proof. intros Ht He. cbn [run]. rewrite Ht, He. apply exec_means. Qed.
Print Assumptions engine_executes.

(** ** Examples *)

Lemma no_action_split s : split_open s = (s, None) → no_action s.
Proof.
  intros H a z. revert s H. induction a as [|c a IH]; intros s H ->; [done|].
  rewrite sapp_cons in H. cbn [split_open] in H. destruct (has_prefix "{{" (String c (a +:+ "{{" +:+ z))); [done|].
  destruct (split_open (a +:+ "{{" +:+ z)) as [u o] eqn:E. injection H as -> ->. by apply (IH _ E).
Qed.
Lemma cut_none t : cut false false t t.
Proof. exists "", "". split; [by rewrite sapp_nil_r|done]. Qed.
Definition tok_text (t : tok) : string :=
  match t with
  | KDot => "." | KField f => "." +:+ f | KVar v => "$" +:+ v | KId w => w | KStr s => """" +:+ s +:+ """" | KNum n => dec n
  | KPipe => "|" | KLeft => "(" | KRight => ")" | KComma => "," | KDecl => ":=" | KSpace => " "
  end.
Ltac tok1 :=
  match goal with
  | |- token (KField _) _ => apply w_field; eexists _, _; repeat split
  | |- token (KId _) _ => apply w_id; eexists _, _; repeat split
  | |- token (KVar ?v) _ => apply (w_var v); reflexivity
  | |- token (KStr ?s) _ => apply (w_str s); reflexivity
  | |- token (KNum ?n) _ => apply (w_num n)
  | |- token KSpace _ => apply w_space; apply (bool_decide_unpack _); vm_compute; exact I
  | |- token _ _ => constructor
  end.
Ltac toks :=
  lazymatch goal with
  | |- tokens [] _ => exact w_none
  | |- tokens (?t :: ?ts) ?s =>
    let w := eval vm_compute in (tok_text t) in let r := eval vm_compute in (sdrop (String.length w) s) in
    apply (w_token t ts w r); [tok1|vm_compute; first [exact I|reflexivity|split; [reflexivity|discriminate]]|toks]
  end.
Ltac source :=
  lazymatch goal with
  | |- w_source false ?s ?is =>
    let x := eval vm_compute in (split_open s) in
    lazymatch x with
    | (?t, None) => refine (w_last false t t _ (cut_none t)); apply no_action_split; vm_compute; reflexivity
    | (?t, Some ?r) =>
      let y := eval vm_compute in (la r) in
      lazymatch y with
      | Some (?ts, false, ?z) =>
        let a := eval vm_compute in (stake (String.length r - 2 - String.length z) r) in
        let is' := eval vm_compute in (drop (length (text_item t ++ [IAct ts])) is) in
        refine (w_action false t t a ts false "}}" z is' _ (cut_none t) _ w_close _); [apply no_action_split; vm_compute; reflexivity|toks|source]
      end
    end
  end.
Lemma only_one w : only w [KId w].
Proof. by exists [], []; split_and!; [constructor|constructor|]. Qed.
Lemma notin (x : string) (l : list string) : bool_decide (x ∈ l) = false → x ∉ l.
Proof. apply bool_decide_eq_false. Qed.

Definition sample : string :=
  "{{define ""row""}}<li>{{.}}</li>{{end}}{{with .Title}}{{render . | joinLines ""> ""}}{{else}}none{{end}}" +:+
  "{{range $i, $x := .Children}}{{if and $i (not $x.Style)}}, {{end}}{{template ""row"" $x.Path}}{{end}}".
Definition row : list node := [NText "<li>"; NAct XRaw [[ODot]]; NText "</li>"].
Definition sample_body : list node :=
  [NWith [[OField ["Title"]]] [NAct XRaw [[OFunc "render"; ODot]; [OFunc "joinLines"; OStr "> "]]] [NText "none"];
   NRange ["i"; "x"] [[OField ["Children"]]]
     [NIf [[OFunc "and"; OVar "i" []; OParen [[OFunc "not"; OVar "x" ["Style"]]]]] [NText ", "] [];
      NCall "row" (Some [[OVar "x" ["Path"]]])] []].

Definition row_items : list item := [IText "<li>"; IAct [KDot]; IText "</li>"].
Definition with_items : list item :=
  [IAct [KId "render"; KSpace; KDot; KSpace; KPipe; KSpace; KId "joinLines"; KSpace; KStr "> "]; IAct [KId "else"]; IText "none"; IAct [KId "end"]].
Definition if_items : list item := [IText ", "; IAct [KId "end"]].
Definition range_items : list item :=
  (IAct [KId "if"; KSpace; KId "and"; KSpace; KVar "i"; KSpace; KLeft; KId "not"; KSpace; KVar "x"; KField "Style"; KRight] :: if_items) ++
  [IAct [KId "template"; KSpace; KStr "row"; KSpace; KVar "x"; KField "Path"]; IAct [KId "end"]].
Definition sample_items : list item :=
  IAct [KId "define"; KSpace; KStr "row"] :: row_items ++ IAct [KId "end"] ::
  (IAct [KId "with"; KSpace; KField "Title"] :: with_items) ++
  (IAct [KId "range"; KSpace; KVar "i"; KComma; KSpace; KVar "x"; KSpace; KDecl; KSpace; KField "Children"] :: range_items).

Example sample_source : w_source false sample sample_items.
Proof. source. Qed.

Lemma one_command o ts cmd : w_command (o :: cmd) ts → w_pipeline [o :: cmd] ts.
Proof. intros H. pose proof (w_pipe_one [] _ ts [] (List.Forall_nil _) (List.Forall_nil _) H) as Hp. by rewrite app_nil_r in Hp. Qed.
Lemma spaced_command o ts cmd : w_command (o :: cmd) ts → w_pipeline [o :: cmd] (KSpace :: ts).
Proof.
  intros H. assert (spaces [KSpace]) as Hs by (constructor; [done|constructor]).
  pose proof (w_pipe_one [KSpace] _ ts [] Hs (List.Forall_nil _) H) as Hp. by rewrite app_nil_r in Hp.
Qed.
Lemma one_space : spaces [KSpace].
Proof. constructor; [done|constructor]. Qed.
Lemma no_space : spaces [].
Proof. constructor. Qed.

Example sample_file : w_file sample_body [("row", row)] sample_items.
Proof.
  refine (w_file_def [] [KSpace] "row" [] row row_items [KId "end"] _ _ _ no_space one_space no_space _ (only_one "end") _).
  { refine (w_nodes_cons _ [IText "<li>"] _ _ (w_text _) _).
    refine (w_nodes_cons _ [IAct [KDot]] _ _ (w_act _ _ (one_command _ _ _ (w_cmd_one _ _ w_odot))) _).
    exact (w_nodes_cons _ [IText "</li>"] _ _ (w_text _) w_nodes_nil). }
  refine (w_file_node _ (IAct _ :: with_items) _ _ _ (w_with [] _ [KSpace; KField "Title"] _ _ with_items no_space _ _) _).
  { exact (spaced_command _ _ _ (w_cmd_one _ _ (w_ofield "Title" []))). }
  { refine (w_else _ [IAct _] [KId "else"] _ [IText "none"] [KId "end"] _ (only_one _) _ (only_one _)).
    - refine (w_nodes_cons _ [IAct _] _ [] (w_act _ _ _) w_nodes_nil).
      refine (w_pipe_more [] _ [KId "render"; KSpace; KDot] [KSpace] _ _ [KSpace; KId "joinLines"; KSpace; KStr "> "] no_space one_space _ _ _); [| |exact I].
      + refine (w_cmd_more _ [KId "render"] [KSpace] _ [KDot] (w_ofunc "render" _ _) _ one_space (w_cmd_one _ _ w_odot)); [by apply notin|by apply notin|done].
      + apply spaced_command. refine (w_cmd_more _ [KId "joinLines"] [KSpace] _ [KStr "> "] (w_ofunc "joinLines" _ _) _ one_space (w_cmd_one _ _ (w_ostr "> "))); [by apply notin|by apply notin|done].
    - exact (w_nodes_cons _ [IText "none"] _ _ (w_text _) w_nodes_nil). }
  refine (w_file_node _ (IAct _ :: range_items) _ _ [] (w_range [] ["i"; "x"] [KSpace; KVar "i"; KComma; KSpace; KVar "x"; KSpace; KDecl] _ [KSpace; KField "Children"] _ _ range_items no_space _ _ _) w_file_nil).
  { exact (w_vars_two [KSpace] "i" [] [KSpace] "x" [KSpace] one_space no_space one_space one_space). }
  { exact (spaced_command _ _ _ (w_cmd_one _ _ (w_ofield "Children" []))). }
  refine (w_no_else _ (_ :: if_items ++ [IAct [KId "template"; KSpace; KStr "row"; KSpace; KVar "x"; KField "Path"]]) [KId "end"] _ (only_one "end")).
  refine (w_nodes_cons _ (_ :: if_items) _ [_] (w_if [] _ [KSpace; KId "and"; KSpace; KVar "i"; KSpace; KLeft; KId "not"; KSpace; KVar "x"; KField "Style"; KRight] _ _ if_items no_space _ _) _).
  { apply spaced_command. refine (w_cmd_more _ [KId "and"] [KSpace] _ _ (w_ofunc "and" _ _) _ one_space _); [by apply notin|by apply notin|done|].
    refine (w_cmd_more _ [KVar "i"] [KSpace] _ _ (w_ovar "i" []) _ one_space _); [done|]. refine (w_cmd_one _ _ (w_oparen _ [KId "not"; KSpace; KVar "x"; KField "Style"] _)).
    apply one_command. refine (w_cmd_more _ [KId "not"] [KSpace] _ _ (w_ofunc "not" _ _) _ one_space (w_cmd_one _ _ (w_ovar "x" ["Style"]))); [by apply notin|by apply notin|done]. }
  { exact (w_no_else _ [IText ", "] [KId "end"] (w_nodes_cons _ [IText ", "] _ _ (w_text _) w_nodes_nil) (only_one "end")). }
  refine (w_nodes_cons _ [_] _ [] (w_call_with [] [KSpace] "row" _ [KSpace; KVar "x"; KField "Path"] no_space one_space _) w_nodes_nil).
  exact (spaced_command _ _ _ (w_cmd_one _ _ (w_ovar "x" ["Path"]))).
Qed.
Example sample_text : template_text sample_body [("row", row)] sample.
Proof. exists sample_items. split; [exact sample_source|exact sample_file]. Qed.
Example sample_parses : parse "own.tmpl" sample = Some [("row", row); ("own.tmpl", sample_body)].
Proof. vm_compute. reflexivity. Qed.
Example sample_taken : taken (bodies "row" ([("row", row)] ++ [("own.tmpl", sample_body)])) row ∧
  taken (bodies "own.tmpl" ([("row", row)] ++ [("own.tmpl", sample_body)])) sample_body.
Proof.
  split; apply (proj2 (proj1 (template_text_reads "own.tmpl" _ _ _ sample_text) _ sample_parses)); [left|right; left].
Qed.

(** Trimming: the blanks on the sides of the delimiters are no part of the texts. *)
Example trimmed_text : template_text [NText "a"; NAct XRaw [[OBool true]]; NText "b "] [] ("a " +:+ String nl "" +:+ "{{- true -}} b ").
Proof.
  exists [IText "a"; IAct [KSpace; KId "true"]; IText "b "]. split.
  - refine (w_action_trim false ("a " +:+ String nl "") "a" " " "true" [KId "true"] true " -}}" " b " [IText "b "] _ _ _ _ _ _).
    + apply no_action_split. vm_compute. reflexivity.
    + exists "", (" " +:+ String nl ""). split; [done|]. split; [done|]. split.
      * intros c Hc. apply (bool_decide_unpack _). revert c Hc. apply Forall_forall, (bool_decide_unpack _). vm_compute. exact I.
      * intros v c E. destruct v as [|x [|y v]]; [|done|done]. injection E as <-. apply (bool_decide_unpack _). vm_compute. exact I.
    + apply (bool_decide_unpack _). vm_compute. exact I.
    + toks.
    + apply w_close_trim. apply (bool_decide_unpack _). vm_compute. exact I.
    + refine (w_last true " b " "b " _ _).
      * apply no_action_split. vm_compute. reflexivity.
      * exists " ", "". split; [done|]. split; [|done]. split.
        -- intros c Hc. apply (bool_decide_unpack _). revert c Hc. apply Forall_forall, (bool_decide_unpack _). vm_compute. exact I.
        -- apply (bool_decide_unpack _). vm_compute. exact I.
  - refine (w_file_node _ [_] _ _ _ (w_text "a") _). refine (w_file_node _ [_] _ _ [_] (w_act _ _ (spaced_command _ _ _ (w_cmd_one _ _ w_otrue))) _).
    exact (w_file_node _ [_] _ _ [] (w_text "b ") w_file_nil).
Qed.

(** Execution. [with] moves the dot, but not in its [else]; a range goes through a
    list with its indices; [and] and [or] give one of their arguments; a variable
    hides an earlier one, to the end of its list. *)
Definition words : val := VCon (CSeq [CString "one"; CString ""; CString "three"]).
Definition shows (c : content) : outcome error string := match c with CString s => Ok s | _ => Err (EPlugin "") end.
Definition plainly (t : list node) (data : val) (s : string) : Prop :=
  template_gives (λ v f args w, member (λ _ _, false) false [] shows v f args = Ok w)
    (λ f args w, apply_func [] shows "html" false (λ _, Ok "") f args = Ok w)
    (λ x v s, put shows false x v = Ok s) (λ n v s, Ok (E := rerr) n = Ok s) t data s.
Ltac executes := apply exec_means; vm_compute; reflexivity.
Example range_with : plainly
  [NRange ["i"; "x"] [[OField ["Contents"]]]
    [NAct XRaw [[OVar "i" []]]; NWith [[ODot]] [NText "="; NAct XRaw [[ODot]]] [NText "-"; NAct XRaw [[OFunc "len"; OVar "" []]]]; NText " "] [NText "no"]]
  words "0=one 1-3 2=three ".
Proof. executes. Qed.
Example range_else : plainly [NRange [] [[ODot]] [NText "x"] [NText "none"]] (VCon (CPara [])) "none".
Proof. executes. Qed.
Example short_circuit : plainly
  [NAct XRaw [[OFunc "or"; OStr ""; ONum 3; OFunc "missing"]]; NAct XRaw [[OFunc "and"; ONum 0; OFunc "missing"]]; NAct XRaw [[OFunc "and"; ONum 1; OStr "x"]]] VNil "30x".
Proof. executes. Qed.
Example scopes : plainly
  [NDecl "x" [[OStr "a"]]; NIf [[OBool true]] [NDecl "x" [[OStr "b"]]; NAct XRaw [[OVar "x" []]]] []; NAct XRaw [[OVar "x" []]]; NDecl "x" [[OStr "c"]]; NAct XRaw [[OVar "x" []]]] VNil "bac".
Proof. executes. Qed.
Example piped : plainly [NAct XRaw [[OStr ("b" +:+ String nl "c")]; [OFunc "joinLines"; OStr "> "]]; NCall "row" None] VNil ("b" +:+ String nl "> crow").
Proof. executes. Qed.
(** And what means nothing: a variable out of its list. *)
Example out_of_scope s : ¬ plainly [NIf [[OBool true]] [NDecl "x" [[OStr "b"]]] []; NAct XRaw [[OVar "x" []]]] VNil s.
Proof. intros H. apply exec_means in H. vm_compute in H. discriminate H. Qed.
