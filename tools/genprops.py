#!/usr/bin/env python3
"""Write rocq/theories/Props<X>.v from Thm<X>.v.

Every lemma `p_<name>` of Thm<X>.v becomes `Theorem <name>` with the same
statement, proved by `exact p_<name>` and followed by Print Assumptions; every
`Example x_<name>` becomes `Example <name>_example`.  The generated files are
committed; this script is not part of the build.
"""
import re, sys, os, glob
here = os.path.join(os.path.dirname(os.path.abspath(__file__)), '..', 'rocq', 'theories')
where = {n: os.path.basename(f)[3:-2] for f in glob.glob(os.path.join(here, 'Thm*.v'))
         for n in re.findall(r'^Example x_(\w+)', open(f).read(), re.M)}
for f in sorted(glob.glob(os.path.join(here, 'Thm*.v'))):
    base = os.path.basename(f)[3:-2]
    s = open(f).read()
    title = re.match(r'\(\*\* \* (.*?)\*\)', s, re.S).group(1).strip()
    head = re.search(r'^From Coq.*?(?=\n\n|\nLocal Open Scope)', s, re.S | re.M).group(0)
    out = ['(** * %s\n    Statements only; the proofs are in Thm%s.v. *)' % (title, base), head,
           'From Verif Require Import Thm%s.' % base, '\n'.join(re.findall(r'^Local Open Scope \w+\.', s, re.M)), '']
    for m in re.finditer(r'((?:\(\*\*(?:(?!\*\)).)*\*\)\s*\n)?)(Lemma p_|Example x_)(\w+)\s*:(.*?)\.\s*\nProof\.', s, re.S):
        com, kind, name, stmt = m.group(1), m.group(2), m.group(3), m.group(4)
        if com and not com.startswith('(** **'): out.append(com.rstrip())
        if kind.startswith('Lemma'):
            out.append('Theorem %s :%s.\nProof. exact p_%s. Qed.\nPrint Assumptions %s.\n' % (name, stmt, name, name))
            if where.get(name, base) != base:
                out.append('(** Instance: %s_example in Props%s.v. *)\n' % (name, where[name]))
        else:
            out.append('Example %s_example :%s.\nProof. exact x_%s. Qed.\n' % (name, stmt, name))
    open(os.path.join(here, 'Props%s.v' % base), 'w').write('\n'.join(out))
    print(base, sum(1 for o in out if o.startswith('Theorem')), 'theorems', sum(1 for o in out if o.startswith('Example')), 'examples')
