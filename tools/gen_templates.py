#!/usr/bin/env python3
"""Regenerates rocq/theories/Templates.v from the template constants of /repo/pkg/renderer/sgml/{html5,xhtml5}.
The text of every template is copied verbatim; it is parsed inside Coq (Tmpl.v)."""
import re, glob, os, sys
R = '/repo/pkg/renderer/sgml'

def tokens(src):
    i = 0
    while i < len(src):
        c = src[i]
        if src.startswith('//', i):
            i = src.find('\n', i)
            if i < 0: return
        elif c == '`':
            j = src.index('`', i + 1)
            yield ('str', src[i+1:j], i); i = j + 1
        elif c == '"':
            j = i + 1; out = ''
            while src[j] != '"':
                if src[j] == '\\':
                    out += {'n': '\n', '"': '"', '\\': '\\', 't': '\t'}[src[j+1]]; j += 2
                else:
                    out += src[j]; j += 1
            yield ('str', out, i); i = j + 1
        elif c.isalpha() or c == '_':
            m = re.match(r'\w+', src[i:]); yield ('id', m.group(0), i); i += m.end()
        elif c.isspace():
            i += 1
        else:
            yield (c, c, i); i += 1

def constants(d):
    res = {}
    for f in sorted(glob.glob(f'{R}/{d}/*.go')):
        if f.endswith('_test.go') or f.endswith('templates.go') or f.endswith('html5.go'): continue
        src = open(f).read()
        t = list(tokens(src)); k = 0
        while k + 2 < len(t):
            if t[k][0] == 'id' and t[k+1][0] == '=' and t[k+2][0] == 'str':
                name = t[k][1]; start = t[k][2]; k += 2; s = t[k][1]; end = t[k][2]
                while k + 2 < len(t) and t[k+1][0] == '+' and t[k+2][0] == 'str':
                    k += 2; s += t[k][1]; end = t[k][2] + (t[k][1].count('\n') and 0)
                l1 = src.count('\n', 0, start) + 1
                nxt = t[k+1][2] if k + 1 < len(t) else len(src)
                l2 = src.count('\n', 0, t[k][2]) + 1
                # a raw string may span several lines
                if src[t[k][2]] == '`': l2 += t[k][1].count('\n')
                res[name] = (s, f'{d}/{os.path.basename(f)}', l1, l2)
            k += 1
    return res

h, x = constants('html5'), constants('xhtml5')
fields = re.findall(r'^\t(\w+):\s+(\w+),', open(f'{R}/html5/templates.go').read(), re.M)
over = dict(re.findall(r'^\ttemplates\.(\w+) = (\w+)', open(f'{R}/xhtml5/xhtml5.go').read(), re.M))
def lit(s):
    assert all(ord(c) < 128 for c in s)
    return '"' + s.replace('"', '""') + '"'
out = ['(** The templates of the HTML and XHTML renderers, copied verbatim (generated by tools/gen_templates.py from',
       '    pkg/renderer/sgml/html5/*.go and pkg/renderer/sgml/xhtml5/*.go; the fields are those of sgml.Templates,',
       '    pkg/renderer/sgml/templates.go:5-81). *)', 'From Verif Require Import GoBase.', '']
out.append('Inductive tname :=\n' + '\n'.join('| T' + f for f, _ in fields) + '.\n')
for f, c in fields:
    s, p, a, b = h[c]
    out.append(f'(** {p}:{a}-{b} {c} *)\nDefinition html5_{f} : string :=\n{lit(s)}.\n')
for f, c in over.items():
    s, p, a, b = x[c]
    out.append(f'(** {p}:{a}-{b} {c} *)\nDefinition xhtml5_{f} : string :=\n{lit(s)}.\n')
out.append('(** html5/templates.go:13-89 *)\nDefinition html5 (t : tname) : string :=\n  match t with\n' +
           '\n'.join(f'  | T{f} => html5_{f}' for f, _ in fields) + '\n  end.\n')
out.append('(** xhtml5/xhtml5.go:13-33 Render: the templates of html5, some of them overridden *)\nDefinition xhtml5 (t : tname) : string :=\n  match t with\n' +
           '\n'.join(f'  | T{f} => xhtml5_{f}' for f in over) + '\n  | t => html5 t\n  end.\n')
out.append('Definition all_templates : list tname :=\n  [' + '; '.join('T' + f for f, _ in fields) + '].\n')
open(os.path.join(os.path.dirname(__file__), '../rocq/theories/Templates.v'), 'w').write('\n'.join(out))
print(len(fields), len(over))
