#!/usr/bin/env python3
"""Extract the large literal tables of /repo (read as text) into Tables.v.

Only literals are read, with ast.literal_eval; nothing of /repo is imported or
executed.  Usage: gen_tables.py [/repo] > ../rocq/theories/Tables.v
"""
import ast
import sys

REPO = sys.argv[1] if len(sys.argv) > 1 else "/repo"

# (coq prefix, file, class)
CLASSES = [
    ("cybox_2_0", "ramrod/cybox/cybox_2_0.py", "Cybox_2_0_Updater"),
    ("cybox_2_0_1", "ramrod/cybox/cybox_2_0_1.py", "Cybox_2_0_1_Updater"),
    ("stix_1_0", "ramrod/stix/stix_1_0.py", "STIX_1_0_Updater"),
    ("stix_1_0_1", "ramrod/stix/stix_1_0_1.py", "STIX_1_0_1_Updater"),
    ("stix_1_1", "ramrod/stix/stix_1_1.py", "STIX_1_1_Updater"),
    ("stix_1_1_1", "ramrod/stix/stix_1_1_1.py", "STIX_1_1_1_Updater"),
    ("stix_1_2", "ramrod/stix/stix_1_2.py", "STIX_1_2_Updater"),
]
DICTS = {"NSMAP": "nsmap", "UPDATE_NS_MAP": "ns_map",
         "UPDATE_SCHEMALOC_MAP": "schemaloc_map"}
TUPLES = {"DISALLOWED_NAMESPACES": "disallowed_ns"}


def lit(s):
    assert '"' not in s and all(32 <= ord(c) < 127 for c in s), s
    return '"%s"' % s


def emit_dict(name, d, cite):
    print("(** %s *)" % cite)
    print("Definition %s : dict string :=" % name)
    print("  [%s]." % ";\n   ".join("(%s,\n    %s)" % (lit(k), lit(v)) for k, v in d.items()))
    print()


def emit_list(name, l, cite):
    print("(** %s *)" % cite)
    print("Definition %s : list string :=" % name)
    print("  [%s]." % ";\n   ".join(lit(x) for x in l))
    print()


print("""(** * Literal tables of /repo.

    GENERATED by tools/gen_tables.py from the text of /repo; do not edit.
    Absent class attributes have the defaults of /repo/ramrod/base.py:466-485
    (empty).  No proofs in this file. *)

From Coq Require Import String List.
From Verif Require Import Str.
Import ListNotations.
Local Open Scope string_scope.
""")

for prefix, path, cls in CLASSES:
    tree = ast.parse(open("%s/%s" % (REPO, path)).read())
    node = [n for n in tree.body if isinstance(n, ast.ClassDef) and n.name == cls][0]
    got = {}
    for st in node.body:
        if isinstance(st, ast.Assign) and len(st.targets) == 1:
            key = st.targets[0].id
            if key in DICTS or key in TUPLES:
                got[key] = (ast.literal_eval(st.value), st.lineno, st.end_lineno)
    for key, suffix in list(DICTS.items()) + list(TUPLES.items()):
        emit = emit_dict if key in DICTS else emit_list
        if key in got:
            val, a, b = got[key]
            cite = "/repo/%s:%d-%d [%s.%s]" % (path, a, b, cls, key)
        else:
            val = {} if key in DICTS else ()
            cite = "[%s.%s]: inherited, empty" % (cls, key)
        emit("%s_%s" % (prefix, suffix), val, cite)

path = "ramrod/scripts/update_ns.py"
tree = ast.parse(open("%s/%s" % (REPO, path)).read())
for st in tree.body:
    if isinstance(st, ast.Assign) and st.targets[0].id in ("STIX_NS_1_2", "STIX_NS_1_2_1"):
        emit_list(st.targets[0].id, ast.literal_eval(st.value),
                  "/repo/%s:%d-%d" % (path, st.lineno, st.end_lineno))
