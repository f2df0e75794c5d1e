#!/usr/bin/env python3
"""Write rocq/theories/SrcText.v from the source files, or check it.

  srctext.py REPO > SrcText.v      print the Coq file holding the source
  srctext.py REPO --check FILE     say whether FILE holds exactly this source
"""
import os
import sys


def text(repo):
    names = sorted(n for n in os.listdir(repo)
                   if n.endswith('.go') and not n.endswith('_test.go'))
    out = ['(** The source files of the package, letter by letter.  Written by',
           '    tools/srctext.py; inside a Coq string a double quote is written',
           '    twice, nothing else is changed. *)',
           'From Coq Require Import String List.',
           'Import ListNotations.',
           'Local Open Scope string_scope.', '']
    for n in names:
        body = open(os.path.join(repo, n), encoding='utf-8').read()
        out.append('(** /repo/%s *)' % n)
        out.append('Definition %s_go : string := "%s".\n' % (n[:-3], body.replace('"', '""')))
    out.append('Definition files : list (string * string) := [')
    out.append(';\n'.join('  ("%s", %s_go)' % (n, n[:-3]) for n in names) + '].')
    return '\n'.join(out) + '\n'


if __name__ == '__main__':
    t = text(sys.argv[1])
    if len(sys.argv) > 3 and sys.argv[2] == '--check':
        same = open(sys.argv[3], encoding='utf-8').read() == t
        print('same' if same else 'DIFFERENT')
        sys.exit(0 if same else 1)
    sys.stdout.write(t)
