#!/usr/bin/env python3
"""Runs the examples of /repo/tests on the model. Each input is loaded by [Command.choose] and
written by [Render.write_section]; pages are made by executing the bundled templates and those
of tests/fixtures ([TmplExec.run_page]), as the tests do. Needs the compiled theories.
Usage: conform.py [-v]"""
import re, sys, os, glob, json, subprocess, tempfile
here = os.path.dirname(os.path.abspath(__file__))
th = os.path.join(here, '..', 'rocq', 'theories')
tests = os.environ.get('TESTS', '/repo/tests')

def expr(src, i):
    """A Go string expression: literals joined by + (and calls of strings.Replace...)."""
    out = ''
    while True:
        while src[i] in ' \t\n': i += 1
        if src[i] == '`':
            j = src.index('`', i + 1); out += src[i+1:j]; i = j + 1
        elif src[i] == '"':
            j = i + 1
            while src[j] != '"': j += 2 if src[j] == '\\' else 1
            out += json.loads(src[i:j+1]); i = j + 1
        elif src.startswith('crlf(', i):
            x, i = expr(src, i + 5); out += x.replace('\n', '\r\n'); i = src.index(')', i) + 1
        else: raise ValueError(src[i:i+40])
        k = i
        while src[k] in ' \t\n': k += 1
        if src[k] != '+': return out, i
        i = k + 1

def files(src, i):
    i = src.index('{', i) + 1; m = {}
    while True:
        while src[i] in ' \t\n,': i += 1
        if src[i] == '}': return m
        k, i = expr(src, i); i = src.index(':', i) + 1; v, i = expr(src, i); m[k] = v

def entries():
    for f in sorted(glob.glob(tests + '/*_test.go')):
        src = open(f).read(); starts = [m.start() for m in re.finditer(r'\n\tEntry\(', src)] + [len(src)]
        for a, b in zip(starts, starts[1:]):
            e = src[a:b]; name = json.loads(re.search(r'Entry\(("(?:[^"\\]|\\.)*")', e).group(1))
            d = {'file': os.path.basename(f), 'name': name, 'inputs': {}, 'outputs': {}}
            for key in ['Input', 'SearchIndex']:
                m = re.search(r'\n\t\t' + key + r':', e)
                if m: d[key], _ = expr(e, m.end())
            for key in ['Inputs', 'Outputs']:
                m = re.search(r'\n\t\t' + key + r':', e)
                if m: d[key.lower()] = files(e, m.end())
            for key in ['LoadErr', 'RenderErr']:
                m = re.search(r'\n\t\t' + key + r':\s*gomega\.\w+\(', e)
                if m: d[key], _ = expr(e, m.end())
            yield d

PRELUDE = '''From Coq Require Import Ascii String.
From stdpp Require Import base strings list.
From Verif Require Import GoBase Ast Content Section Peg Render Evaluate Collect Html Json Command Report Templates Tmpl TmplExec.
Local Open Scope string_scope. Local Open Scope list_scope.
Definition text_arg (f : string → prog (list retval)) : method :=
  Method [TStr] None (λ _ args, match args with [AStr s] => f s | _ => PPanic end).
Definition titled (style : string) (block : bool) : method :=
  Method [TCon; TCon] None (λ _ args, match args with
    | [ACon t; ACon (Some c)] => PRet [RCon (Some (CStyled style block c [("Title", t)]))]
    | _ => PPanic end).
Definition plugin (name : string) : option factory :=
  if String.eqb name "baselit" then Some FBase else
  if String.eqb name "errer" then Some (FExt 0) else
  if String.eqb name "stringer" then Some (FExt 1) else
  if String.eqb name "set-partials" then Some (FExt 2) else
  if String.eqb name "arbitrary-style" then Some (FExt 3) else
  if String.eqb name "partial-style" then Some (FExt 4) else None.
Definition methods (f : factory) (name : string) : option method :=
  match f with
  | FBase => base_method name
  | FExt 0 => if String.eqb name "SingleFail" then Some (text_arg (λ _, PRet [RErr (Some (EPlugin "oh no"))]))
              else if String.eqb name "MultiFail" then Some (text_arg (λ _, PRet [RCon None; RErr (Some (EPlugin "oh no"))])) else None
  | FExt 1 => if String.eqb name "String" then Some (text_arg (λ s, PRet [RCon (Some (CString s))])) else None
  | FExt 2 => if String.eqb name "SetThePartial" then
                Some (Method [] None (λ _ _, POp (OSetPartial "FooBar" (Some (CPara [CString "I'm a partial!"]))) (PRet []))) else None
  | FExt 3 => if String.eqb name "ArbitraryStyle" then
                Some (Method [TCon] None (λ _ args, match args with [ACon (Some c)] => PRet [RCon (Some (CStyled "arbitrary" false c []))] | _ => PPanic end)) else None
  | FExt 4 => if String.eqb name "BlockStyle" then Some (titled "custom-style" true)
              else if String.eqb name "InlineStyle" then Some (titled "inline-custom-style" false) else None
  | _ => None
  end.
Definition E : env := Env (λ _, None) plugin methods (λ _ _, false) false 20.
Definition W : world := World (λ _ n, seq 0 n) (λ _, None) (λ _, "") true (λ _, true) true.
Definition T : telling := Telling (λ _, inl "") 4096 (λ p, p) (λ _, "") (λ _, "") "".
Definition own : option (tset (list Tmpl.node)) := templates bundled_html [%FIXTURES%].
Definition tset_own : tset (list Tmpl.node) := default no_templates own.
Definition fixtures_parse : bool := match own with Some _ => true | None => false end.
Definition eng (E : env) (h : heap) : Render.engine := λ i,
  match run_page (e_similar E) (e_broken E) h (w_force W) (cstring (e_similar E) (e_broken E) h (e_jumps E)) "html" true tset_own 60 i with
  | Ok bytes => (bytes, None)
  | Err (RTag e) => ("", Some e)
  | _ => ("", Some (EPlugin "rendering"))
  end.
Definition example (E : env) (index : bool) : list (string * string) :=
  match choose E W (Options "/t/a.lit" "out" "" "" index "") 40 with
  | (s, Ok (r, i)) =>
    match write_section (st_heap s) (w_open W) "html" (eng E (st_heap s)) i [] with
    | None => [("panic", "")]
    | Some (fs, Some e) => [("render error", Report.error_text T e)]
    | Some (fs, None) =>
      if index then
        match write_search_index (w_short W) (cstring (e_similar E) (e_broken E) (st_heap s) (e_jumps E)) (st_heap s)
                (w_open W) "html" r "search_index.json" fs with Ok fs => fs | _ => [("index error", "")] end
      else fs
    end
  | (_, Err (FLoad e)) => [("load error", Report.error_text T e)]
  | (_, Err _) => [("error", "")]
  | (_, Panic) => [("panic", "")]
  | (_, NoFuel) => [("no fuel", "")]
  end.
Fixpoint disk_of (l : list (string * string)) : disk := λ p,
  match l with [] => None | (q, b) :: l => if String.eqb p q then Some (1, b) else disk_of l p end.
Set Printing Width 10000000.
Set Printing Depth 10000000.
'''

def lit(s):
    parts = []; cur = ''
    for b in s.encode():
        if b == 13: parts.append('"' + cur + '"'); parts.append('String "013" ""'); cur = ''
        elif b == 34: cur += '""'
        else: cur += chr(b) if b < 128 else None
    parts.append('"' + cur + '"')
    return ' +:+ '.join('(' + p + ')' for p in parts)

def shown(out):
    """The list of pairs Coq prints."""
    res = []; i = 0; strs = []
    while i < len(out):
        if out[i] == '"':
            j = i + 1; s = ''
            while True:
                if out[j] == '"':
                    if out[j+1:j+2] == '"': s += '"'; j += 2; continue
                    break
                s += out[j]; j += 1
            strs.append(s); i = j + 1
        else: i += 1
    return list(zip(strs[::2], strs[1::2]))

def tokens(x):
    toks = []
    for t in re.findall(r'<[^>]*>|[^<]+', x):
        if not t.startswith('<'):
            t = t.strip()
            t = t.replace('&#39;', "'").replace('&#34;', '"').replace('&#43;', '+').replace('&lt;','<').replace('&gt;','>').replace('&amp;','&')
        if t: toks.append(t)
    return toks
def body(x):
    """gomega.MatchXML does not see text before the first element."""
    t = tokens(x)
    while t and not t[0].startswith('<'): t = t[1:]
    return t

def main():
    todo = list(entries())
    own = [(os.path.basename(f), open(f).read()) for f in sorted(glob.glob(tests + '/fixtures/*.tmpl'))]
    d = tempfile.mkdtemp(); src = PRELUDE.replace('%FIXTURES%', '; '.join('("%s", %s)' % (n, lit(c)) for n, c in own))
    src += 'Goal fixtures_parse = true. vm_compute. reflexivity. Qed.\n'
    for k, e in enumerate(todo):
        fs = {'/t/a.lit': e['Input']}; fs.update({'/t/' + p: c for p, c in e['inputs'].items()})
        src += 'Definition d%d : disk := disk_of [%s].\n' % (k, '; '.join('("%s", %s)' % (p, lit(c)) for p, c in fs.items()))
        src += 'Eval vm_compute in example (reading d%d E) %s.\n' % (k, 'true' if 'SearchIndex' in e else 'false')
    open(d + '/Conform.v', 'w').write(src)
    r = subprocess.run(['coqc', '-Q', th, 'Verif', d + '/Conform.v'], capture_output=True, text=True)
    if r.returncode: print(r.stderr[-2000:]); sys.exit(2)
    outs = re.split(r'(?m)^     = ', r.stdout)[1:]; assert len(outs) == len(todo), (len(outs), len(todo))
    bad = 0
    for e, o in zip(todo, outs):
        got = dict(shown(o[:o.rindex(': list')])); why = None
        if 'LoadErr' in e:
            if e['LoadErr'] not in got.get('load error', ''): why = (e['LoadErr'], got)
        elif 'RenderErr' in e:
            if e['RenderErr'] not in got.get('render error', ''): why = (e['RenderErr'], got)
        else:
            for f, x in e['outputs'].items():
                if f not in got: why = ('no file ' + f, got); break
                if body(x) != body(got[f]): why = (body(x), body(got[f])); break
            if 'SearchIndex' in e and 'search_index.json' in got:
                if json.loads(e['SearchIndex']) != json.loads(got['search_index.json']): why = (e['SearchIndex'], got['search_index.json'])
            elif 'SearchIndex' in e: why = ('no index', got)
        if why: bad += 1; print('DIFFERS', e['file'], e['name'], *map(repr, why), sep='\n  ')
        elif '-v' in sys.argv: print('ok', e['file'], e['name'])
    print('%d examples agree, %d differ' % (len(todo) - bad, bad))
    sys.exit(1 if bad else 0)
main()
