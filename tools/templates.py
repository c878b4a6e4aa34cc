#!/usr/bin/env python3
"""Compare the templates of rocq/theories/Impl.v with the quote! templates of the source.

usage: templates.py /repo/xsd-internal/src rocq/theories/Impl.v

Prints the templates that have no counterpart, up to white space. In Impl.v three
are expected: a field with the comma of element_content.rs:77, the name of a struct
with the braces of element_definition.rs:75, and the implementations that follow the
declaration of an enumeration (the declaration is in Emit.v). Of the source, the
templates of types and declarations remain (Emit.v builds these tokens without
quote!), and templates that only put others in sequence.
"""
import os, re, sys

def balanced(s, i):
    """end of the group that opens at i; strings are skipped"""
    pair = {'(': ')', '{': '}', '[': ']'}; stack = []
    while i < len(s):
        c = s[i]
        if c == '"':
            i += 1
            while s[i] != '"': i += 2 if s[i] == '\\' else 1
        elif c in pair: stack.append(pair[c])
        elif stack and c == stack[-1]:
            stack.pop()
            if not stack: return i
        i += 1

def norm(t):
    t = re.sub(r'//[^\n]*', '', t)
    return re.sub(r'\s+', '', t)

def rust(src):
    for d, _, fs in os.walk(src):
        for f in sorted(fs):
            if not f.endswith('.rs'): continue
            s = open(os.path.join(d, f)).read()
            for m in re.finditer(r'quote!\s*', s):
                j = balanced(s, m.end())
                yield os.path.relpath(os.path.join(d, f), src) + ':' + str(s.count('\n', 0, m.start()) + 1), s[m.end() + 1:j]

def coq(path):
    s = open(path).read()
    for m in re.finditer(r'quote "((?:[^"]|"")*)"', s):
        yield '%s:%d' % (os.path.basename(path), s.count('\n', 0, m.start()) + 1), m.group(1).replace('""', '"')

src, impl = sys.argv[1:3]
R = list(rust(src)); C = list(coq(impl))
rs = {norm(t) for _, t in R}; cs = {norm(t) for _, t in C}
for w, t in C:
    if norm(t) not in rs: print('only in the model ', w, ' '.join(t.split()))
for w, t in R:
    if norm(t) not in cs: print('only in the source', w, ' '.join(t.split()))
