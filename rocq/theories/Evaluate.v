(** stages/evaluate.go, load/processor.go, baselit/plugin.go: evaluation of syntax
    trees into sections, with arbitrary plugins. *)
From Coq Require Import Ascii String.
From stdpp Require Import base strings list.
From Verif Require Import GoBase Ast Content Section.

(** ** State and effects *)

(** The sections, and the processor's parse cache (load/processor.go:26: path to
    syntax tree and modification time). *)
Record st := St { st_heap : heap; st_cache : list (string * (node * nat)) }.

(** A step changes the state and has an outcome. A returned Go error leaves the
    changes in place. *)
Definition M (A : Type) : Type := st → st * outcome error A.
Definition mret {A} (a : A) : M A := λ s, (s, Ok a).
Definition mbind {A B} (m : M A) (f : A → M B) : M B := λ s,
  match m s with
  | (s', Ok a) => f a s'
  | (s', Err e) => (s', Err e)
  | (s', Panic) => (s', Panic)
  | (s', NoFuel) => (s', NoFuel)
  end.
Definition mfail {A} (o : outcome error A) : M A := λ s, (s, o).
(** [m] run to completion; a Go error becomes a value. *)
Definition mcatch {A} (m : M A) : M (A + error) := λ s,
  match m s with
  | (s', Ok a) => (s', Ok (inl a))
  | (s', Err e) => (s', Ok (inr e))
  | (s', Panic) => (s', Panic)
  | (s', NoFuel) => (s', NoFuel)
  end.
Definition mheap : M heap := λ s, (s, Ok (st_heap s)).
Definition mmod (f : heap → heap) : M unit := λ s, (St (f (st_heap s)) (st_cache s), Ok tt).
Definition mupd (i : nat) (f : section → section) : M unit := mmod (λ h, upd h i f).
(** A pure computation. *)
Definition mlift {A} (o : outcome error A) : M A := λ s, (s, o).
Definition mopt {A} (o : option A) : M A :=
  match o with Some a => mret a | None => mfail NoFuel end.

Notation "x <- m ;; f" := (mbind m (λ x, f)) (at level 100, m at next level, right associativity).
Notation "m ;;; f" := (mbind m (λ _, f)) (at level 100, right associativity).

Fixpoint mmap {A B} (f : A → M B) (l : list A) : M (list B) :=
  match l with
  | [] => mret []
  | x :: r => y <- f x;; ys <- mmap f r;; mret (y :: ys)
  end.

Fixpoint mfold {A B} (f : B → A → M B) (acc : B) (l : list A) : M B :=
  match l with
  | [] => mret acc
  | x :: r => acc' <- f acc x;; mfold f acc' r
  end.

(** ** Plugin programs *)

(** Assignments to the plugin's own section. *)
Inductive op :=
| OSetTitle (title : content) (l : loc) (tags : list string)   (* Section.SetTitle *)
| OSetTag (name : string) (title : option content) (l : loc) (anchor : list string)  (* Section.SetTag *)
| OSetTagAnchored (name : string) (title : option content) (l : loc) (c : option content) (anchor : string)
| OSetPartial (name : string) (c : option content)             (* Section.SetPartial *)
| OStyle (name : string)                                       (* Section.Style = name *)
| OPreventSplit                                                (* PreventSplitSections = true *)
| OResetDepth                                                  (* ResetDepth = true *)
| OSplit                                                       (* SplitSections = true *)
| OOmit                                                        (* OmitChildrenFromTableOfContents = true *)
| OUsePlugin (f : factory).                                    (* Section.UsePlugin *)

(** What a plugin method does, as a sequence of uses of the API: reading any
    section, changing its own section, evaluating a node or file below its own
    section (and then possibly adding the new section to its Children, once).
    [PEvalNode]'s flag pair is (attach, record the invoke location). *)
Inductive prog (A : Type) : Type :=
| PRet (a : A)
| PPanic
| PHeap (k : heap → prog A)
| PReg (name : string) (k : option factory → prog A)           (* booklit.LookupPlugin *)
| POp (o : op) (k : prog A)
| PEvalNode (nd : node) (fs : list factory) (attach setloc : bool) (k : nat + error → prog A)
| PEvalFile (path : string) (fs : list factory) (attach : bool) (k : nat + error → prog A).
Arguments PRet {A} a.
Arguments PPanic {A}.
Arguments PHeap {A} k.
Arguments PReg {A} name k.
Arguments POp {A} o k.
Arguments PEvalNode {A} nd fs attach setloc k.
Arguments PEvalFile {A} path fs attach k.

(** ** Methods *)

(** stages/evaluate.go:291-317: parameter types. *)
Inductive argty := TStr | TCon | TNode | TOther (name : string).
Inductive argval := AStr (s : string) | ACon (c : option content) | ANode (n : node).

(** Return values; the constructor is the static return type. *)
Inductive retval := RCon (c : option content) | RErr (e : option error) | ROther (ty : string).

(** A method: fixed parameters, element type of the variadic one if any, body
    (receiving the plugin's section and the arguments). *)
Record method := Method {
  m_in : list argty;
  m_variadic : option argty;
  m_body : nat → list argval → prog (list retval)
}.

(** ** Environment *)

Record env := Env {
  e_fs : string → option (nat * (node + error));  (* modification time and parse result *)
  e_registry : string → option factory;           (* plugin.go: plugins *)
  e_methods : factory → string → option method;   (* method set of the plugins *)
  e_similar : string → string → bool;
  e_broken : bool;                                (* AllowBrokenReferences *)
  e_jumps : nat                                   (* bound on String()'s pointer jumps *)
}.

Section evaluate.
  Context (E : env).

  Definition str (h : heap) (c : content) : outcome error string :=
    cstring (e_similar E) (e_broken E) h (e_jumps E) c.

  (** Performing an assignment. *)
  Definition run_op (self : nat) (o : op) : M unit :=
    match o with
    | OSetTitle title l tags =>
      h <- mheap;;
      tags' <- mlift (title_tags (e_similar E) (e_broken E) h (e_jumps E) title tags);;
      mupd self (set_title self title l tags')
    | OSetTag name title l anchor => mupd self (set_tag self name title l anchor)
    | OSetTagAnchored name title l c anchor => mupd self (set_tag_anchored self name title l c anchor)
    | OSetPartial name c => mupd self (set_partial name c)
    | OStyle name => mupd self (λ s, set_style s name)
    | OPreventSplit => mupd self (λ s, set_flags s (s_split s) true (s_reset s) (s_omit s))
    | OResetDepth => mupd self (λ s, set_flags s (s_split s) (s_prevent s) true (s_omit s))
    | OSplit => mupd self (λ s, set_flags s true (s_prevent s) (s_reset s) (s_omit s))
    | OOmit => mupd self (λ s, set_flags s (s_split s) (s_prevent s) (s_reset s) true)
    | OUsePlugin f => mupd self (use_plugin f)
    end.

  (** The recursive evaluator: section, Result so far, node. *)
  Context (rec : nat → option content → node → M (option content)).

  (** Allocation of a section (load/processor.go:115-124, 146-153). *)
  Definition alloc (parent : option nat) (path : string) : M nat := λ s,
    (St (st_heap s ++ [new_section parent path]) (st_cache s), Ok (length (st_heap s))).

  (** load/processor.go:163-183 [evaluateSection]. *)
  Definition evaluate_section (self : nat) (nd : node) (fs : list factory) : M unit :=
    mfold (λ _ f, mupd self (use_plugin f)) tt fs;;;
    r <- rec self None nd;;
    match r with
    | Some c => mupd self (λ s, set_body s c)
    | None => mret tt
    end.

  (** load/processor.go:145-161 [EvaluateNode]. *)
  Definition evaluate_node (parent : nat) (nd : node) (fs : list factory) : M nat :=
    i <- alloc (Some parent) "";;
    evaluate_section i nd fs;;;
    mret i.

  (** load/processor.go:67-113: the cached tree unless the file's modification
      time is later than the cached one. *)
  Definition parse_step (path : string) (mtime : nat) (parsed : node + error) : M node := λ s,
    (s, let fresh := match parsed with inl n => Ok n | inr e => Err e end in
        match assoc_get path (st_cache s) with
        | Some (n, t) => if Nat.ltb t mtime then fresh else Ok n
        | None => fresh
        end).

  (** load/processor.go:59-139 [EvaluateFile]; the mutex is irrelevant here (see
      Cache.v for concurrent use). *)
  Definition evaluate_file (parent : option nat) (path : string) (fs : list factory) : M nat :=
    match e_fs E path with
    | None => mfail (Err (EStat path))
    | Some (mtime, parsed) =>
      nd <- parse_step path mtime parsed;;
      i <- alloc parent path;;
      evaluate_section i nd fs;;;
      (λ s, (St (st_heap s) (assoc_set path (nd, mtime) (st_cache s)), Ok i))
    end.

  (** [plugin.section.Children = append(plugin.section.Children, section)]. *)
  Definition attach_child (self child : nat) : M unit :=
    mupd self (λ s, set_children s (s_children s ++ [child])).

  Definition attach_result (self : nat) (attach setloc : bool) (r : nat + error) : M unit :=
    match r with
    | inr _ => mret tt
    | inl i =>
      (if setloc then
         h <- mheap;;
         match h !! self with
         | None => mfail Panic
         | Some s => mupd i (λ c, set_loc c (s_invloc s))
         end
       else mret tt);;;
      (if attach then attach_child self i else mret tt)
    end.

  Fixpoint run_prog {A} (self : nat) (p : prog A) : M A :=
    match p with
    | PRet a => mret a
    | PPanic => mfail Panic
    | PHeap k => h <- mheap;; run_prog self (k h)
    | PReg name k => run_prog self (k (e_registry E name))
    | POp o k => run_op self o;;; run_prog self k
    | PEvalNode nd fs attach setloc k =>
      r <- mcatch (evaluate_node self nd fs);;
      attach_result self attach setloc r;;;
      run_prog self (k r)
    | PEvalFile path fs attach k =>
      r <- mcatch (evaluate_file (Some self) path fs);;
      attach_result self attach false r;;;
      run_prog self (k r)
    end.

  (** stages/evaluate.go:319-331 [evalArg] and 291-317 [convert]. *)
  Definition convert (self : nat) (ty : argty) (nd : node) : M argval :=
    match ty with
    | TStr =>
      c <- rec self None nd;;
      match c with
      | None => mfail Panic                      (* content.String() on nil *)
      | Some c => h <- mheap;; s <- mlift (str h c);; mret (AStr s)
      end
    | TCon => c <- rec self None nd;; mret (ACon c)
    | TNode => mret (ANode nd)
    | TOther name => mfail (Err (EArgType name))
    end.

  Definition is_zero (a : argval) : bool := match a with ACon None => true | _ => false end.

  (** stages/evaluate.go:144-150. *)
  Fixpoint find_method (fs : list factory) (name : string) : option method :=
    match fs with
    | [] => None
    | f :: r => match e_methods E f name with Some m => Some m | None => find_method r name end
    end.

  (** stages/evaluate.go:241-250, 262-271. *)
  Definition wrap_error (fn : string) (l : errloc) (e : error) : error :=
    if is_pretty e then e else EFailed fn e l.

  Definition ret_ty (r : retval) : string :=
    match r with RCon _ => "booklit.Content" | RErr _ => "error" | ROther t => t end.

  (** stages/evaluate.go:231-288. *)
  Definition handle_results (fn : string) (l : errloc) (acc : option content) (rets : list retval)
      : M (option content) :=
    match rets with
    | [] => mret acc
    | [r] =>
      match r with
      | RErr (Some e) => mfail (Err (wrap_error fn l e))
      | RErr None => mret acc
      | RCon (Some c) => mret (go_append acc [Some c])
      | RCon None => mfail Panic                 (* val.(booklit.Content) on nil *)
      | ROther t => mfail (Err (ERetType 0 t))
      end
    | [r1; r2] =>
      match r2 with
      | RErr (Some e) => mfail (Err (wrap_error fn l e))
      | RErr None =>
        match r1 with
        | RCon (Some c) => mret (go_append acc [Some c])
        | RCon None => mfail Panic
        | r1 => mfail (Err (ERetType 1 (ret_ty r1)))
        end
      | r2 => mfail (Err (ERetType 2 (ret_ty r2)))
      end
    | _ => mfail (Err (ERetCount fn (length rets)))
    end.

  (** stages/evaluate.go:192-201. *)
  Definition arity_ok (m : method) (given : nat) : bool :=
    match m_variadic m with
    | Some _ => Nat.leb (length (m_in m)) given
    | None => Nat.eqb (length (m_in m)) given
    end.
  Definition is_variadic (m : method) : bool := match m_variadic m with Some _ => true | None => false end.

  (** The type each argument is converted to (stages/evaluate.go:203-227). *)
  Definition arg_types (m : method) (args : list node) : list (argty * node) :=
    zip (m_in m) args ++
    match m_variadic m with
    | Some t => map (pair t) (drop (length (m_in m)) args)
    | None => []
    end.

  (** stages/evaluate.go:138-289 [VisitInvoke]; the slow-invoke warning is
      modelled in SlowInvoke.v. *)
  Definition visit_invoke (self : nat) (acc : option content) (fn : string) (args : list node) (l : loc)
      : M (option content) :=
    mupd self (λ s, set_invloc s l);;;
    h <- mheap;;
    match h !! self with
    | None => mfail Panic
    | Some s =>
      f <- mopt (file_path h self);;
      let el := ErrLoc f l (S (String.length fn)) in
      match find_method (s_factories s) (method_name fn) with
      | None => mfail (Err (EUndefined fn el))
      | Some m =>
        if arity_ok m (length args) then
          argv <- mmap (λ p, convert self (fst p) (snd p)) (arg_types m args);;
          if existsb is_zero argv then mfail Panic   (* reflect: Call using zero Value argument *)
          else
            rets <- run_prog self (m_body m self argv);;
            handle_results fn el acc rets
        else mfail (Err (EArity fn (length args) (length (m_in m)) (is_variadic m)))
      end
    end.

  (** stages/evaluate.go:36-45 [VisitSequence]. *)
  Definition visit_seq (self : nat) (acc : option content) (l : list node) : M (option content) :=
    mfold (rec self) acc l.

  (** The non-nil results of the lines (stages/evaluate.go:62-74, 101-113). *)
  Definition visit_lines (self : nat) (lines : list (list node)) : M (list content) :=
    rs <- mmap (visit_seq self None) lines;; mret (omap id rs).

  (** ast.Node.Visit and the Visit methods of stages/evaluate.go:30-118. *)
  Definition eval_F (self : nat) (acc : option content) (nd : node) : M (option content) :=
    match nd with
    | NString s => mret (go_append acc [Some (CString s)])
    | NSeq l => visit_seq self acc l
    | NPara lines =>
      para <- visit_lines self lines;;
      match para with
      | [] => mret acc
      | [c] => if is_flow c then mret (go_append acc [Some (CPara para)]) else mret (go_append acc [Some c])
      | _ => mret (go_append acc [Some (CPara para)])
      end
    | NPre lines =>
      pre <- visit_lines self lines;;
      mret (go_append acc [Some (CPre pre)])
    | NInvoke fn args l => visit_invoke self acc fn args l
    end.
End evaluate.

(** [n] bounds the depth of the Go recursion. *)
Fixpoint eval (E : env) (n : nat) (self : nat) (acc : option content) (nd : node) : M (option content) :=
  match n with
  | 0 => mfail NoFuel
  | S n => eval_F E (eval E n) self acc nd
  end.

(** ** The base plugin, baselit/plugin.go:28-300 *)

Definition getself {A} (self : nat) (k : section → prog A) : prog A :=
  PHeap (λ h, match h !! self with Some s => k s | None => PPanic end).
Definition getpath {A} (self : nat) (k : string → prog A) : prog A :=
  PHeap (λ h, match file_path h self with Some f => k f | None => PPanic end).

(** A call whose arguments do not have the declared types cannot happen. *)
Definition ill_typed : prog (list retval) := PPanic.

(** baselit/plugin.go:117-185. *)
Definition styled_method (style : string) : method :=
  Method [TCon] None (λ self args,
    match args with
    | [ACon (Some c)] => PRet [RCon (Some (CStyled style false c []))]
    | _ => ill_typed
    end).

(** Variadic arguments as content / strings. *)
Fixpoint con_args (l : list argval) : option (list content) :=
  match l with
  | [] => Some []
  | ACon (Some c) :: r => cs ← con_args r; Some (c :: cs)
  | _ => None
  end.
Fixpoint str_args (l : list argval) : option (list string) :=
  match l with
  | [] => Some []
  | AStr s :: r => ss ← str_args r; Some (s :: ss)
  | _ => None
  end.

(** [row.(booklit.List)]. *)
Definition as_list (c : content) : option (list content) :=
  match c with CList items _ => Some items | _ => None end.

(** baselit/plugin.go:258-271. *)
Fixpoint table_rows (rows : list content) (acc : list (list content)) : content + error :=
  match rows with
  | [] => inl (CTable acc)
  | row :: r => match as_list row with
                | Some items => table_rows r (acc ++ [items])
                | None => inr (ETableRow row)
                end
  end.

(** baselit/plugin.go:277-296. *)
Fixpoint def_items (items : list content) (acc : list (content * content)) : content + error :=
  match items with
  | [] => inl (CDefs acc)
  | item :: r => match as_list item with
                 | None => inr (EDefNotList item)
                 | Some [s; d] => def_items r (acc ++ [(s, d)])
                 | Some _ => inr (EDefNotTwo item)
                 end
  end.

Definition ret_con_err (r : content + error) : prog (list retval) :=
  match r with
  | inl c => PRet [RCon (Some c); RErr None]
  | inr e => PRet [RCon None; RErr (Some e)]
  end.

Definition list_method (ordered : bool) : method :=
  Method [] (Some TCon) (λ self args,
    match con_args args with
    | Some cs => PRet [RCon (Some (CList cs ordered))]
    | None => ill_typed
    end).

(** baselit/plugin.go:28-37. *)
Definition m_use_plugin : method :=
  Method [TStr] None (λ self args,
    match args with
    | [AStr name] => PReg name (λ f, match f with
                                     | None => PRet [RErr (Some (EUnknownPlugin name))]
                                     | Some f => POp (OUsePlugin f) (PRet [RErr None])
                                     end)
    | _ => ill_typed
    end).

(** baselit/plugin.go:43-61. [Title != Empty] compares interface values. *)
Definition is_empty (c : content) : bool :=
  match c with CString "" => true | _ => false end.
Definition m_title : method :=
  Method [TCon] (Some TStr) (λ self args,
    match args with
    | ACon (Some title) :: tags =>
      match str_args tags with
      | None => ill_typed
      | Some tags =>
        getself self (λ s,
          if is_empty (s_title s) then POp (OSetTitle title (s_invloc s) tags) (PRet [RErr None])
          else getpath self (λ f,
            PRet [RErr (Some (ETitleTwice (ErrLoc f (s_titleloc s) 6) (ErrLoc f (s_invloc s) 6)))]))
      end
    | _ => ill_typed
    end).

(** baselit/plugin.go:69-80. *)
Definition m_section : method :=
  Method [TNode] None (λ self args,
    match args with
    | [ANode nd] =>
      getself self (λ s,
        PEvalNode nd (s_factories s) true true (λ r,
          match r with
          | inl _ => PRet [RErr None]
          | inr e => PRet [RErr (Some e)]
          end))
    | _ => ill_typed
    end).

(** baselit/plugin.go:82-93. *)
Definition m_include : method :=
  Method [TStr] None (λ self args,
    match args with
    | [AStr path] =>
      getpath self (λ f,
        PEvalFile (path_join (path_dir f) path) [FBase] true (λ r,
          match r with
          | inl _ => PRet [RErr None]
          | inr e => PRet [RErr (Some e)]
          end))
    | _ => ill_typed
    end).

(** baselit/plugin.go:95-109. *)
Definition m_single_page : method :=
  Method [] None (λ self args, POp OPreventSplit (PRet [])).
Definition m_split : method :=
  Method [] None (λ self args,
    POp OResetDepth (PHeap (λ h,
      match split_prevented h self with
      | None => PPanic
      | Some true => PRet []
      | Some false => POp OSplit (PRet [])
      end))).
Definition m_omit : method :=
  Method [] None (λ self args, POp OOmit (PRet [])).

(** baselit/plugin.go:194-208. *)
Definition m_reference : method :=
  Method [TStr] (Some TCon) (λ self args,
    match args with
    | AStr tag :: rest =>
      match con_args rest with
      | None => ill_typed
      | Some cs => getself self (λ s,
          PRet [RCon (Some (CRef self tag (head cs) false (s_invloc s)))])
      end
    | _ => ill_typed
    end).

(** baselit/plugin.go:210-227. *)
Definition m_target : method :=
  Method [TStr] (Some TCon) (λ self args,
    match args with
    | AStr tag :: rest =>
      match con_args rest with
      | None => ill_typed
      | Some cs => getself self (λ s,
          let '(title, c) := match cs with
                             | [t; c] => (t, Some c)
                             | [t] => (t, None)
                             | _ => (CString tag, None)
                             end in
          PRet [RCon (Some (CTarget tag (s_invloc s) (Some title) c))])
      end
    | _ => ill_typed
    end).

(** baselit/plugin.go:242-252. *)
Definition m_image : method :=
  Method [TStr] (Some TStr) (λ self args,
    match str_args args with
    | Some (path :: desc) => PRet [RCon (Some (CImage path (default "" (head desc))))]
    | _ => ill_typed
    end).

Definition m_toc : method :=
  Method [] None (λ self args, PRet [RCon (Some (CToc self))]).
Definition m_aux : method :=
  Method [TCon] None (λ self args,
    match args with [ACon (Some c)] => PRet [RCon (Some (CAux c))] | _ => ill_typed end).
Definition m_styled : method :=
  Method [TStr] None (λ self args,
    match args with [AStr name] => POp (OStyle name) (PRet []) | _ => ill_typed end).
Definition m_link : method :=
  Method [TCon; TStr] None (λ self args,
    match args with [ACon (Some c); AStr t] => PRet [RCon (Some (CLink c t))] | _ => ill_typed end).
Definition m_set_partial : method :=
  Method [TStr; TCon] None (λ self args,
    match args with [AStr n; ACon c] => POp (OSetPartial n c) (PRet []) | _ => ill_typed end).
Definition m_table : method :=
  Method [] (Some TCon) (λ self args,
    match con_args args with Some rows => ret_con_err (table_rows rows []) | None => ill_typed end).
Definition m_definitions : method :=
  Method [] (Some TCon) (λ self args,
    match con_args args with Some items => ret_con_err (def_items items []) | None => ill_typed end).
Definition m_definition : method :=
  Method [TCon; TCon] None (λ self args,
    match con_args args with Some cs => PRet [RCon (Some (CList cs false))] | None => ill_typed end).

Definition base_table : list (string * method) :=
  [ ("UsePlugin", m_use_plugin); ("Styled", m_styled); ("Title", m_title); ("Aux", m_aux);
    ("Section", m_section); ("IncludeSection", m_include); ("SinglePage", m_single_page);
    ("SplitSections", m_split); ("OmitChildrenFromTableOfContents", m_omit); ("TableOfContents", m_toc);
    ("Code", styled_method "verbatim"); ("Italic", styled_method "italic"); ("Bold", styled_method "bold");
    ("Larger", styled_method "larger"); ("Smaller", styled_method "smaller"); ("Strike", styled_method "strike");
    ("Superscript", styled_method "superscript"); ("Subscript", styled_method "subscript");
    ("Inset", styled_method "inset"); ("Aside", styled_method "aside"); ("Link", m_link);
    ("Reference", m_reference); ("Target", m_target); ("List", list_method false);
    ("OrderedList", list_method true); ("Image", m_image); ("SetPartial", m_set_partial);
    ("Table", m_table); ("TableRow", list_method false); ("Definitions", m_definitions);
    ("Definition", m_definition) ]%string.

Definition base_method (name : string) : option method := assoc_get name base_table.

(** The environment's [FBase] is the base plugin. *)
Definition base_env (E : env) : Prop := ∀ name, e_methods E FBase name = base_method name.

(** ** Loading *)

(** load/processor.go:59: evaluating a file at the top. *)
Definition load_file (E : env) (n : nat) (path : string) (fs : list factory) : M nat :=
  evaluate_file E (eval E n) None path fs.
