#!/usr/bin/env python3
"""Turn the repository's integration tests (/repo/xsd/tests) into Coq examples.

Usage: conformance.py /repo/xsd/tests > rocq/theories/Conformance.v
"""
import os, re, sys
from xml.parsers import expat

XMLNS = "http://www.w3.org/XML/1998/namespace"


def q(s):
    return '"' + s.replace('"', '""') + '"'


def opt(s):
    return "None" if s is None else "(Some %s)" % q(s)


def lst(xs):
    return "[" + "; ".join(xs) + "]"


class Tree:
    def __init__(self, path, zero):
        self.zero = zero
        self.stack = []
        self.root = None
        p = expat.ParserCreate()
        p.ordered_attributes = True
        p.buffer_text = True
        p.StartElementHandler = self.start
        p.EndElementHandler = self.end
        p.CharacterDataHandler = self.text
        p.CommentHandler = lambda s: self.stack and self.stack[-1]["kids"].append("KOther " + q(s))
        self.p = p
        p.Parse(open(path, "rb").read(), True)

    def start(self, name, attrs):
        scope = dict(self.stack[-1]["scope"]) if self.stack else {}
        ats = []
        for i in range(0, len(attrs), 2):
            k, v = attrs[i], attrs[i + 1]
            if k == "xmlns":
                scope[None] = v
            elif k.startswith("xmlns:"):
                scope[k[6:]] = v
            else:
                ats.append((k, v))

        def expand(n, elem):
            if ":" in n:
                pre, loc = n.split(":", 1)
                return loc, (XMLNS if pre == "xml" else scope[pre])
            return n, (scope.get(None) if elem else None)

        rng = "(0%N, 0%N)" if self.zero else "(%d%%N, 0%%N)" % self.p.CurrentByteIndex
        out = []
        for j, (k, v) in enumerate(ats):
            loc, ns = expand(k, False)
            r = rng if self.zero else "(%d%%N, %d%%N)" % (self.p.CurrentByteIndex, j + 1)
            out.append("mkAttr %s %s %s %s" % (q(loc), opt(ns), q(v), r))
        loc, ns = expand(name, True)
        nss = [] if self.zero else ["(%s, %s)" % (opt(k), q(v)) for k, v in scope.items()]
        self.stack.append(dict(scope=scope, head="XE %s %s %s %s %s" % (q(loc), opt(ns), lst(out), lst(nss), rng), kids=[]))

    def end(self, name):
        f = self.stack.pop()
        t = "%s %s" % (f["head"], lst(f["kids"]))
        if self.stack:
            self.stack[-1]["kids"].append("KElem (%s)" % t)
        else:
            self.root = t

    def text(self, s):
        if self.stack:
            self.stack[-1]["kids"].append("KText " + q(s))


TOK = re.compile(r'\s*(?://[^\n]*\n\s*)*("(?:[^"\\]|\\.)*"|-?\d+\.\d+|-?\d+|[A-Za-z_][A-Za-z_0-9#]*(?:::[A-Za-z_][A-Za-z_0-9#]*)*!?|[{}()\[\],:;.])')


class Val:
    """Parser of the Rust value expressions that occur in the tests."""

    def __init__(self, src):
        self.t = []
        i = 0
        while i < len(src):
            m = TOK.match(src, i)
            if not m:
                break
            self.t.append(m.group(1))
            i = m.end()
        self.i = 0

    def peek(self):
        return self.t[self.i] if self.i < len(self.t) else None

    def eat(self, x=None):
        t = self.t[self.i]
        assert x is None or t == x, (x, t, self.t[self.i - 3:self.i + 3])
        self.i += 1
        return t

    def seq(self, close):
        out = []
        while self.peek() != close:
            out.append(self.val())
            if self.peek() == ",":
                self.eat()
        self.eat(close)
        return out

    def val(self):
        t = self.eat()
        if t.startswith('"'):
            s = t[1:-1].replace('\\"', '"').replace("\\n", "\n")
            while self.peek() == ".":
                self.eat(); self.eat(); self.eat("("); self.eat(")")
            return "VStr " + q(s)
        if re.fullmatch(r"-?\d+\.\d+", t):
            t = t[:-2] if t.endswith(".0") else t
            return "VF32 (f32_code %s)" % q(t)
        if re.fullmatch(r"-?\d+", t):
            return "VInt (%s)%%Z" % t
        if t in ("true", "false"):
            return "VBool " + t
        if t == "(":
            self.eat(")")
            return "VUnit"
        if t == "None":
            return "VNone"
        if t == "Some":
            self.eat("(")
            v = self.seq(")")
            return "VSome (%s)" % v[0]
        if t == "vec!":
            self.eat("[")
            return "VVec " + lst(self.seq("]"))
        if t == "String::new":
            self.eat("("); self.eat(")")
            return 'VStr ""'
        if t == "Box::new":
            self.eat("(")
            return self.seq(")")[0]
        if t in ("Decimal::from", "rust_decimal::Decimal::from"):
            self.eat("(")
            n = self.eat(); self.eat(")")
            return "VDec (mkDec false %s%%N 0%%N)" % n
        parts = t.split("::")
        assert parts[0] == "schema", t
        if self.peek() == "{":
            self.eat()
            fs = []
            while self.peek() != "}":
                f = self.eat(); self.eat(":")
                fs.append("(%s, %s)" % (q(f), self.val()))
                if self.peek() == ",":
                    self.eat()
            self.eat("}")
            return "VStruct " + lst(fs)
        if self.peek() == "(":
            self.eat()
            v = self.seq(")")[0]
            return ("VTuple (%s)" % v) if len(parts) == 2 else "VChoice %s (%s)" % (q(parts[2]), v)
        return "VEnum " + q(parts[2])


def main(d):
    print("(** * Conformance: the repository's integration tests replayed on the model\n\n"
          "    Generated by tools/conformance.py from xsd/tests/*.rs and xsd/tests/xsd/*.\n"
          "    Tests, not proofs: each example runs schema parsing, code generation,\n"
          "    decoding and encoding of the model on a concrete input. *)")
    print("From Verif Require Import Base Libs Xml Ast XsdNode Parse Decode Writer Gen Run Harness.\n")
    xsds = sorted(f for f in os.listdir(d + "/xsd") if f.endswith(".xsd"))
    print("Definition files : list (string * xelem) := [")
    print(";\n".join("  (%s,\n   %s)" % (q("tests/xsd/" + f), Tree(d + "/xsd/" + f, False).root) for f in xsds))
    print("].\n")
    n = 0
    skipped = []
    for f in sorted(os.listdir(d)):
        if not f.endswith(".rs"):
            continue
        src = open(d + "/" + f).read()
        m = re.search(r'schema = "([^"]+)"', src)
        x = re.search(r'include_str!\("\./([^"]+)"\)', src)
        v = re.search(r"let expected = (.*?);\n    (?:assert_eq|\n)", src, re.S) or re.search(r"let expected = (.*?);\n", src, re.S)
        r = re.search(r"schema::(\w+)::from_xml", src)
        name = f[:-3]
        if not (m and x and v and r):
            skipped.append(name)
            continue
        val = Val(v.group(1)).val()
        xml = Tree(d + "/" + x.group(1), True).root
        exact = "false" if name == "all" else "true"
        print("Example conf_%s : conf files %s %s\n  (%s)\n  (%s) %s = true.\nProof. vm_compute. reflexivity. Qed.\n"
              % (name, q(m.group(1)), q(r.group(1)), val, xml, exact))
        n += 1
    print("(* %d tests; without a document to compare: %s *)" % (n, ", ".join(skipped)))


def texts(d):
    print("(** * TextConformance: the repository's integration tests replayed on texts\n\n"
          "    Generated by tools/conformance.py (second argument: texts) from xsd/tests/*.rs and\n"
          "    xsd/tests/xsd/*. Tests, not proofs: each example reads the text of the schema and of\n"
          "    the document, and writes the text of the document. *)")
    print("From Verif Require Import Base Libs Xml Ast XsdNode Parse Decode Writer Gen Run XmlChars XmlRead XmlWrite Harness.\n")
    xsds = sorted(f for f in os.listdir(d + "/xsd") if f.endswith(".xsd"))
    print("Definition texts : list (string * string) := [")
    print(";\n".join("  (%s,\n   %s)" % (q("tests/xsd/" + f), q(open(d + "/xsd/" + f).read())) for f in xsds))
    print("].\nDefinition files : list (string * option xelem) := Eval vm_compute in map (fun f => (fst f, parse_xml (snd f))) texts.\n\n"
          "Definition text_fs (files : list (string * option xelem)) : fs :=\n"
          "  mkFs (fun p => aget String.eqb p files) (fun base p => base +++ strip_dot p) dir_of.\n"
          "(** The text decodes to the value and, if [exact], the value is written as the text. *)\n"
          "Definition text_conf (files : list (string * option xelem)) (path ty : string) (v : value) (text : string) (exact : bool) : bool :=\n"
          "  match (s <- parse_file 50 (text_fs files) path ;; generate_all 50 s), parse_xml text with\n"
          "  | Ok p, Some d =>\n"
          "      andb (match from_xml p 50 ty d with Ok w => value_eqb 50 w v | _ => false end)\n"
          "        (match to_xml p 50 ty v with\n"
          "         | Ok evs => if exact then opt_eqb String.eqb (write_xml (xml_rs) evs) (Some text) else true\n"
          "         | _ => false\n"
          "         end)\n"
          "  | _, _ => false\n"
          "  end.\n")
    n = 0
    for f in sorted(os.listdir(d)):
        if not f.endswith(".rs"):
            continue
        src = open(d + "/" + f).read()
        m = re.search(r'schema = "([^"]+)"', src)
        x = re.search(r'include_str!\("\./([^"]+)"\)', src)
        v = re.search(r"let expected = (.*?);\n    (?:assert_eq|\n)", src, re.S) or re.search(r"let expected = (.*?);\n", src, re.S)
        r = re.search(r"schema::(\w+)::from_xml", src)
        if not (m and x and v and r):
            continue
        exact = "true" if "to_xml().unwrap()), xml)" in src else "false"
        print("Example text_%s : text_conf files %s %s\n  (%s)\n  %s %s = true.\nProof. vm_compute. reflexivity. Qed.\n"
              % (f[:-3], q(m.group(1)), q(r.group(1)), Val(v.group(1)).val(), q(open(d + "/" + x.group(1)).read()), exact))
        n += 1
    print("(* %d tests *)" % n)


(texts if sys.argv[2:] == ["texts"] else main)(sys.argv[1])
