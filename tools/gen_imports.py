#!/usr/bin/env python3
"""Generate rocq/theories/Model/ImportTables.v: the names bound by each file of /repo/src/websockets (read as text)."""
import ast, os, sys

ROOT = "/repo/src"
files = {}
for d, _, fs in os.walk(os.path.join(ROOT, "websockets")):
    for f in fs:
        if f.endswith(".py"):
            rel = os.path.relpath(os.path.join(d, f), ROOT)[:-3].split("/")
            package = rel[-1] == "__init__"
            files[tuple(rel[:-1] if package else rel)] = (package, os.path.join(d, f))


def statements(body):
    for st in body:
        yield st
        if isinstance(st, ast.If):
            yield from statements(st.body)
            yield from statements(st.orelse)
        elif isinstance(st, ast.Try):
            yield from statements(st.body)
            for h in st.handlers:
                yield from statements(h.body)
            yield from statements(st.orelse)
            yield from statements(st.finalbody)


def targets(t):
    if isinstance(t, ast.Name):
        return [t.id]
    if isinstance(t, ast.Tuple):
        return [n for e in t.elts for n in targets(e)]
    return []


raw = {}
for p, (package, fn) in files.items():
    before, after, lazy = [], [], None
    special = ["__name__", "__doc__", "__package__", "__loader__", "__spec__"]
    special += ["__path__"] if package else []
    special += ["__file__", "__cached__", "__builtins__"]
    cur = before
    for n in special:
        cur.append((n, ("o", p, n)))
    lines = {}
    for st in statements(ast.parse(open(fn).read()).body):
        if isinstance(st, ast.Import):
            for a in st.names:
                name = a.name.split(".")
                if a.asname:
                    cur.append((a.asname, ("m", tuple(name))))
                else:
                    cur.append((name[0], ("m", (name[0],))))
        elif isinstance(st, ast.ImportFrom):
            base = () if st.level == 0 else (p if package else p[:-1])[: len(p if package else p[:-1]) - st.level + 1]
            mod = base + tuple((st.module or "").split(".") if st.module else ())
            for a in st.names:
                assert a.name != "*"
                if mod + (a.name,) in files:
                    cur.append((a.asname or a.name, ("m", mod + (a.name,))))
                else:
                    cur.append((a.asname or a.name, ("o", mod, a.name)))
        elif isinstance(st, (ast.FunctionDef, ast.AsyncFunctionDef, ast.ClassDef)):
            cur.append((st.name, ("o", p, st.name)))
        elif isinstance(st, ast.Assign):
            for t in st.targets:
                for n in targets(t):
                    cur.append((n, ("o", p, n)))
        elif isinstance(st, ast.AnnAssign) and st.value is not None:
            cur.append((st.target.id, ("o", p, st.target.id)))
        elif isinstance(st, ast.Expr) and isinstance(st.value, ast.Call) and getattr(st.value.func, "id", "") == "lazy_import":
            kw = {k.arg: ast.literal_eval(k.value) for k in st.value.keywords}
            lazy = (kw.get("aliases", {}), kw.get("deprecated_aliases", {}), st.lineno, st.end_lineno)
            cur = after
    raw[p] = (package, before, lazy, after)

index = {p: dict(b + a) for p, (_, b, _, a) in raw.items()}


def follow(o):
    if o[0] == "o" and o[1] in index:
        t = index[o[1]].get(o[2])
        if t is None:
            return o
        if t == o:
            return o
        return follow(t)
    return o


def cs(x):
    return 's "%s"' % x


def cp(p):
    return "[" + "; ".join(cs(x) for x in p) + "]"


def co(o):
    o = follow(o)
    return "OModule %s" % cp(o[1]) if o[0] == "m" else "OObject %s (%s)" % (cp(o[1]), cs(o[2]))


def dedup(l):
    seen, out = set(), []
    for n, o in reversed(l):
        if n not in seen:
            seen.add(n)
            out.append((n, o))
    return out


def lst(items, ind="    "):
    out, line = [], ""
    for i, it in enumerate(items):
        it = it + ("; " if i + 1 < len(items) else "")
        if len(line) + len(it) > 108:
            out.append(line.rstrip())
            line = ""
        line += it
    out.append(line)
    return "[" + ("\n" + ind).join(out) + "]"


out = []
w = out.append
w("(* Generated by tools/gen_imports.py: the names bound at the top level of each file of src/websockets, except the")
w("   C extension speedups, read as text.  What is imported from another file of websockets is identified by the file and")
w("   the name of its definition.  Of a try or if statement, all branches are included. *)")
w("From Verif Require Import Base.Prelude Model.Imports.")
w("Local Open Scope N_scope.")
w("")
names = []
for p in sorted(raw):
    package, before, lazy, after = raw[p]
    fn = os.path.relpath(files[p][1], "/repo")
    ident = "source_" + "_".join(p).replace("__main__", "main")
    names.append((p, ident))
    w("(* %s%s *)" % (fn, ", lazy_import() on lines %d-%d" % lazy[2:] if lazy else ""))
    w("Definition %s : source := {|" % ident)
    w("  so_package := %s;" % ("true" if package else "false"))
    w("  so_before := " + lst(["(%s, %s)" % (cs(n), co(o)) for n, o in dedup(before)]) + ";")
    if lazy:
        w("  so_lazy := Some (" + lst(["(%s, %s)" % (cs(k), cs(v)) for k, v in lazy[0].items()]) + ",")
        w("    " + lst(["(%s, %s)" % (cs(k), cs(v)) for k, v in lazy[1].items()]) + ");")
    else:
        w("  so_lazy := None;")
    w("  so_after := " + lst(["(%s, %s)" % (cs(n), co(o)) for n, o in dedup(after)]) + " |}.")
    w("")
w("(* src/websockets: the files *)")
w("Definition table : list (path * source) := [")
w(";\n".join("  (%s, %s)" % (cp(p), i) for p, i in names) + "].")
w("Fixpoint find_file (l : list (path * source)) (p : path) : option source :=")
w("  match l with [] => None | (q, x) :: r => if path_eqb q p then Some x else find_file r p end.")
w("Definition websockets_files : path -> option source := find_file table.")
w("")
allv = next(ast.literal_eval(st.value) for st in ast.parse(open(files[("websockets",)][1]).read()).body
            if isinstance(st, ast.Assign) and st.targets[0].id == "__all__")
w("(* src/websockets/__init__.py 5-49: __all__ *)")
w("Definition websockets_all : list str :=\n  " + lst([cs(x) for x in allv], "   ") + ".")
open(sys.argv[1], "w").write("\n".join(out) + "\n")
