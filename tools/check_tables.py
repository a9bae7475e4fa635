#!/usr/bin/env python3
"""Check that params.go, properties.go and sections.go are template instances, and emit the tables.

Reads /repo as text; runs none of its code. For every generated Go type the methods are rebuilt here
from the table row and compared with the text of the Go file, after dropping comments, blank lines
and runs of blanks. Only if all three files match completely are the Coq tables written:
ParamTable.v, PropTable.v, SecTable.v and LabelTable.v (usage: check_tables.py [--emit DIR]), and
GenFiles.v with the descriptions as they are. LabelTable.v has the names in error messages; the constants and the texts of the errors are checked too.
"""
import re
import sys

REPO = "/repo/"


def read(name):
    with open(REPO + name) as f:
        return f.read()


NAMES = dict(l.split("=")[:2] for l in read("names.gen").splitlines() if l)


def name(w):
    if NAMES.get(w):
        return NAMES[w]
    return "".join(p[:1] + p[1:].lower() for p in w.split("-"))


def norm(text):
    out = []
    for l in text.splitlines():
        l = re.sub(r"\s+", " ", l).strip()
        if l and not l.startswith("//"):
            out.append(l)
    return out


# --- parameters ---------------------------------------------------------------------------------

def parse_params():
    rows = []
    for line in read("params.gen").splitlines():
        key, _, v = line.partition("=")
        r = dict(key=key, type=name(key), multi=False, free=False, dq=False, regex=None, vtype=None,
                 string=False, choices=[])
        if v[:1] == "*":
            r["multi"], v = True, v[1:]
        if v[:1] == "?":
            r["free"], v = True, v[1:]
        if v[:1] == '"':
            r["dq"], r["string"], v = True, True, v[1:]
        elif v[:1] == "'":
            r["string"], v = True, v[1:]
        elif v[:1] == "~":
            r["string"], r["regex"], v = True, v[1:], v[1:]
        if v[:1] == "!":
            r["vtype"] = v[1:]
        elif not r["string"]:
            r["choices"] = v.split("|")
        rows.append(r)
    return rows


def go_params(rows):
    o = ['package ics', 'import (', '"errors"', '"fmt"', '"regexp"', '"strings"', '"unicode/utf8"',
         '"vimagination.zapto.org/parser"', ')']
    e = o.append
    for r in rows:
        T = r["type"]
        C = "c" + T
        head = "type Param%s " % T + ("[]" if r["multi"] else "")
        ch = r["choices"]

        def new():
            e("func New%s(v Param%s) *Param%s {" % (T, T, T)); e("return &v"); e("}")
        if r["vtype"]:
            e(head + r["vtype"])
            if r["vtype"] == "Boolean":
                new()
        elif r["string"]:
            e(head + "string"); new()
            if r["regex"]:
                e("var regex%s *regexp.Regexp" % T)
        else:
            full = (["Unknown"] if r["free"] else []) + ch
            if len(full) == 1:
                e(head + "struct{}")
            else:
                e(head + "uint8"); e("const (")
                for i, c in enumerate(full):
                    e(T + name(c) + (" Param%s = iota" % T if i == 0 else ""))
                e(")")
                e("func (t Param%s) New() *Param%s {" % (T, T)); e("return &t"); e("}")
        bad = "return fmt.Errorf(errDecodingType, %s, ErrInvalidParam)" % C
        e("func (t *Param%s) decode(vs []parser.Token) error {" % T)
        v = "vs[0]"
        if r["multi"]:
            e("for _, v := range vs {"); v = "v"
        else:
            e("if len(vs) != 1 {"); e(bad); e("}")
        if r["dq"]:
            e("if %s.Type != tokenParamQuotedValue {" % v); e(bad); e("}")
        if r["vtype"]:
            e("var q %s" % r["vtype"]); e("if err := q.decode(nil, %s.Data); err != nil {" % v)
            e("return fmt.Errorf(errDecodingType, %s, err)" % C); e("}")
            e("*t = append(*t, q)" if r["multi"] else "*t = Param%s(q)" % T)
        elif len(ch) == 1:
            e('if strings.ToUpper(%s.Data) != "%s" {' % (v, ch[0])); e(bad); e("}")
        elif ch:
            e("switch strings.ToUpper(%s.Data) {" % v)
            for c in ch:
                e('case "%s":' % c); e("*t = %s%s" % (T, name(c)))
            e("default:")
            e("*t = %sUnknown" % T if r["free"] else bad)
            e("}")
        elif r["regex"]:
            e("if !regex%s.MatchString(%s.Data) {" % (T, v)); e(bad); e("}")
            e("*t = Param%s(%s.Data)" % (T, v))
        else:
            e("*t = append(*t, decode6868(%s.Data))" % v if r["multi"]
              else "*t = Param%s(decode6868(%s.Data))" % (T, v))
        if r["multi"]:
            e("}")
        e("return nil"); e("}")
        e("func (t Param%s) encode(w writer) {" % T)
        if not ch or r["multi"]:
            cond = {"URI": "len(t.String()) == 0", "Boolean": "!t"}.get(r["vtype"], "len(t) == 0")
            e("if %s {" % cond); e("return"); e("}")
        e('w.WriteString(";%s=")' % r["key"])
        v = "t"
        if r["multi"]:
            e("for n, v := range t {"); e("if n > 0 {"); e('w.WriteString(",")'); e("}"); v = "v"
        enc = "w.Write(encode6868(string(%s)))" % v
        q = 'w.WriteString("\\"")'
        if r["vtype"]:
            e("q := %s(%s)" % (r["vtype"], v)); e("q.encode(w)")
        elif len(ch) == 1:
            e('w.WriteString("%s")' % ch[0])
        elif ch:
            e("switch %s {" % v)
            for c in ch:
                e("case %s%s:" % (T, name(c))); e('w.WriteString("%s")' % c)
            if r["free"]:
                e("default:"); e('w.WriteString("UNKNOWN")')
            e("}")
        elif r["dq"]:
            e(q); e(enc); e(q)
        else:
            e("if strings.ContainsAny(string(%s), nonsafeChars[32:]) {" % v)
            e(q); e(enc); e(q); e("} else {"); e(enc); e("}")
        if r["multi"]:
            e("}")
        e("}")
        e("func (t Param%s) valid() error {" % T)
        free = r["free"] or len(ch) == 1
        if r["vtype"] == "Boolean" or (ch and free):
            e("return nil")
        else:
            if r["multi"]:
                e("for _, v := range t {")
            verr = "return fmt.Errorf(errValidatingType, %s, err)" % C
            vval = "return fmt.Errorf(errValidatingType, %s, ErrInvalidValue)" % C
            if r["vtype"] and r["multi"]:
                e("if err := v.valid(); err != nil {"); e(verr); e("}")
            elif r["vtype"]:
                e("q := %s(t)" % r["vtype"]); e("if err := q.valid(); err != nil {"); e(verr); e("}")
                e("return nil")
            elif ch:
                e("switch %s {" % v); e("case " + ", ".join(T + name(c) for c in ch) + ":")
                e("default:"); e(vval); e("}")
            elif r["regex"]:
                e("if !regex%s.Match([]byte(%s)) {" % (T, v)); e(vval); e("}")
            else:
                e("if strings.ContainsAny(string(%s), nonsafeChars[:31]) {" % v)
                e("return fmt.Errorf(errValidatingType, %s, ErrInvalidText)" % C); e("}")
            if r["multi"]:
                e("}")
            if not r["vtype"] or r["multi"]:
                e("return nil")
        e("}")
    return o


# --- properties ---------------------------------------------------------------------------------

def parse_props():
    rows = []
    for line in read("properties.gen").splitlines():
        if line.startswith("\t"):
            rows[-1]["params"].append(line[1:])
            continue
        key, _, vs = line.partition(":")
        vt = vs.startswith("!")
        base = key.split("#")[0]
        rows.append(dict(type=name(base), key=key.split("#")[-1], vt=vt,
                         values=(vs[1:] if vt else vs).split("|"), params=[]))
    for r in rows:
        r["mode"] = 0
        if not r["params"] and not r["vt"]:
            r["mode"] = 1
        elif not r["params"] and len(r["values"]) == 1:
            r["mode"] = 2
    return rows


MULTI_PARAMS = ("DELEGATED-FROM", "DELEGATED-TO", "MEMBER")


def go_props(rows):
    o = ['package ics', 'import (', '"errors"', '"fmt"', '"strings"', '"vimagination.zapto.org/parser"', ')']
    e = o.append
    for r in rows:
        T, vals, mode, ps = r["type"], r["values"], r["mode"], r["params"]
        C = "c" + T
        many = len(vals) > 1
        if mode == 1:
            e("type Prop%s uint8" % T); e("const (")
            for i, v in enumerate(vals):
                e(T + name(v) + (" Prop%s = iota" % T if i == 0 else ""))
            e(")"); e("func (p Prop%s) New() *Prop%s {" % (T, T)); e("return &p"); e("}")
        elif mode == 2:
            e("type Prop%s %s" % (T, vals[0]))
            if vals[0] == "Integer":
                e("func New%s(v Prop%s) *Prop%s {" % (T, T, T)); e("return &v"); e("}")
        else:
            e("type Prop%s struct {" % T)
            for p in ps:
                e("%s %sParam%s" % (name(p), "" if p in MULTI_PARAMS else "*", name(p)))
            if many:
                for v in vals:
                    e("%s %s%s" % (name(v), "" if v in ("Binary", "MText") else "*", name(v)))
            else:
                e(vals[0])
            e("}")
        e("func (p *Prop%s) decode(params []parser.Token, value string) error {" % T)
        invalid = "return fmt.Errorf(errDecodingType, %s, ErrInvalidValue)" % C
        if mode == 0:
            if many:
                e("vType := -1")
            for l in ["oParams := make(map[string]string)", "var ts []string", "for len(params) > 0 {",
                      "pName := strings.ToUpper(params[0].Data)", "i := 1",
                      "for i < len(params) && params[i].Type != tokenParamName {", "i++", "}",
                      "pValues := params[1:i]", "params = params[i:]", "switch pName {"]:
                e(l)
            for p in ps:
                P = name(p)
                e('case "%s":' % p); e("if p.%s != nil {" % P)
                e("return fmt.Errorf(errDecodingProp, %s, c%s, ErrDuplicateParam)" % (C, P)); e("}")
                if p not in MULTI_PARAMS:
                    e("p.%s = new(Param%s)" % (P, P))
                e("if err := p.%s.decode(pValues); err != nil {" % P)
                e("return fmt.Errorf(errDecodingProp, %s, c%s, err)" % (C, P)); e("}")
            if many:
                e('case "VALUE":'); e("if len(pValues) != 1 {")
                e("return fmt.Errorf(errDecodingProp, %s, cValue, ErrInvalidValue)" % C); e("}")
                e("if vType != -1 {")
                e("return fmt.Errorf(errDecodingProp, %s, cValue, ErrDuplicateParam)" % C); e("}")
                e("switch strings.ToUpper(pValues[0].Data) {")
                for i, v in enumerate(vals):
                    e('case "%s":' % v); e("vType = %d" % i)
                e("default:"); e(invalid); e("}")
            for l in ["default:", "for _, v := range pValues {", "ts = append(ts, v.Data)", "}",
                      'oParams[pName] = strings.Join(ts, ",")', "ts = ts[:0]", "}", "}"]:
                e(l)
            if many:
                e("if vType == -1 {"); e("vType = 0"); e("}"); e("switch vType {")
                for i, v in enumerate(vals):
                    V = name(v)
                    e("case %d:" % i)
                    if v not in ("Binary", "MText"):
                        e("p.%s = new(%s)" % (V, V))
                    e("if err := p.%s.decode(oParams, value); err != nil {" % V)
                    e("return fmt.Errorf(errDecodingProp, %s, c%s, err)" % (C, V)); e("}")
                e("}")
            else:
                V = name(vals[0])
                e("if err := p.%s.decode(oParams, value); err != nil {" % V)
                e("return fmt.Errorf(errDecodingProp, %s, c%s, err)" % (C, V)); e("}")
        elif mode == 1:
            e("switch strings.ToUpper(value) {")
            for v in vals:
                e('case "%s":' % v); e("*p = %s%s" % (T, name(v)))
            e("default:"); e(invalid); e("}")
        else:
            for l in ["oParams := make(map[string]string)", "var ts []string", "for len(params) > 0 {", "i := 1",
                      "for i < len(params) && params[i].Type != tokenParamName {", "i++", "}",
                      "pValues := params[1:i]", "for _, v := range pValues {", "ts = append(ts, v.Data)", "}",
                      'oParams[strings.ToUpper(params[0].Data)] = strings.Join(ts, ",")',
                      "params = params[i:]", "ts = ts[:0]", "}", "var t %s" % vals[0],
                      "if err := t.decode(oParams, value); err != nil {",
                      "return fmt.Errorf(errDecodingType, %s, err)" % C, "}", "*p = Prop%s(t)" % T]:
                e(l)
        e("return nil"); e("}")
        e("func (p *Prop%s) encode(w writer) {" % T)
        if mode == 0:
            e('w.WriteString("%s")' % r["key"])
            for p in ps:
                e("if p.%s != nil {" % name(p)); e("p.%s.encode(w)" % name(p)); e("}")
            if many:
                for v in vals:
                    e("if p.%s != nil {" % name(v))
                    if v != vals[0]:
                        e('w.WriteString(";VALUE=%s")' % v)
                    e("p.%s.aencode(w)" % name(v)); e("}")
            else:
                e("p.%s.aencode(w)" % name(vals[0]))
        elif mode == 1:
            e('w.WriteString("%s:")' % r["key"]); e("switch *p {")
            for v in vals:
                e("case %s%s:" % (T, name(v))); e('w.WriteString("%s")' % v)
            e("}")
        else:
            e('w.WriteString("%s")' % r["key"]); e("t := %s(*p)" % vals[0]); e("t.aencode(w)")
        e('w.WriteString("\\r\\n")'); e("}")
        e("func (p *Prop%s) valid() error {" % T)
        vval = "return fmt.Errorf(errValidatingType, %s, ErrInvalidValue)" % C
        if mode == 0:
            def chk(X, inc):
                e("if p.%s != nil {" % X); e("if err := p.%s.valid(); err != nil {" % X)
                e("return fmt.Errorf(errValidatingProp, %s, c%s, err)" % (C, X)); e("}")
                if inc:
                    e("c++")
                e("}")
            for p in ps:
                chk(name(p), False)
            if many:
                e("c := 0")
                for v in vals:
                    chk(name(v), True)
                e("if c != 1 {"); e(vval); e("}")
            else:
                e("if err := p.%s.valid(); err != nil {" % name(vals[0]))
                e("return fmt.Errorf(errValidatingProp, %s, c%s, err)" % (C, name(vals[0]))); e("}")
        elif mode == 1:
            e("switch *p {"); e("case " + ", ".join(T + name(v) for v in vals) + ":")
            e("default:"); e(vval); e("}")
        else:
            e("t := %s(*p)" % vals[0]); e("if err := t.valid(); err != nil {")
            e("return fmt.Errorf(errValidatingType, %s, err)" % C); e("}")
        e("return nil"); e("}")
    return o


# --- sections -----------------------------------------------------------------------------------

def parse_sections():
    rows = []
    for line in read("sections.gen").splitlines():
        if not line.startswith("\t"):
            rows.append(dict(key=line, type=name(line), fields=[], reqs=[]))
            continue
        f = line[1:]
        if f[0] == "?":
            f = f[1:]
            for c, k in (("!", "ONE"), ("+", "AND"), (">", "ERGO"), ("|", "OR")):
                if c in f:
                    rows[-1]["reqs"].append((k, f.split(c)))
                    break
            continue
        mode = "opt"
        if f[0] in "!*":
            mode = {"!": "req", "*": "many"}[f[0]]
            f = f[1:]
        sec = f.startswith("BEGIN:")
        if sec:
            f = f[6:]
        rows[-1]["fields"].append(dict(name=name(f.split("#")[0]), key=f.split("#")[-1], mode=mode, sec=sec))
    return rows


def endname(r):
    return "VALARM" if r["key"].startswith("VALARM") else r["key"]


def go_sections(rows):
    o = ['package ics', 'import (', '"errors"', '"fmt"', '"io"', '"strings"', '"vimagination.zapto.org/parser"', ')']
    e = o.append
    for r in rows:
        T, fs = r["type"], r["fields"]
        C = "c" + T
        if not fs:
            e("type %s struct{}" % T)
        else:
            e("type %s struct {" % T)
            for f in fs:
                e("%s %s%s%s" % (f["name"], {"many": "[]", "opt": "*", "req": ""}[f["mode"]],
                                 "" if f["sec"] else "Prop", f["name"]))
            e("}")
        e("func (s *%s) decode(t tokeniser) error {" % T)
        if fs:
            e("var " + ", ".join("required" + f["name"] for f in fs if f["mode"] == "req") + " bool")
        for l in ["Loop:", "for {", "p, err := t.GetPhrase()", "if err != nil {",
                  "return fmt.Errorf(errDecodingType, %s, err)" % C,
                  "} else if p.Type == parser.PhraseDone {",
                  "return fmt.Errorf(errDecodingType, %s, io.ErrUnexpectedEOF)" % C, "}"]:
            e(l)
        if fs:
            e("params := p.Data[1 : len(p.Data)-1]")
        for l in ["value := p.Data[len(p.Data)-1].Data", "switch strings.ToUpper(p.Data[0].Data) {",
                  'case "BEGIN":', "switch n := strings.ToUpper(value); n {"]:
            e(l)

        def one(f, args, typ):
            N = f["name"]
            err = "return fmt.Errorf(errDecodingProp, %s, c%s, err)" % (C, N)
            e('case "%s":' % f["key"])
            if f["mode"] == "req":
                e("if required%s {" % N); e("return fmt.Errorf(errMultiple, %s, c%s)" % (C, N)); e("}")
                e("required%s = true" % N)
                e("if err := s.%s.decode(%s); err != nil {" % (N, args)); e(err); e("}")
            elif f["mode"] == "many":
                e("var e %s" % typ); e("if err := e.decode(%s); err != nil {" % args); e(err); e("}")
                e("s.%s = append(s.%s, e)" % (N, N))
            else:
                e("if s.%s != nil {" % N); e("return fmt.Errorf(errMultiple, %s, c%s)" % (C, N)); e("}")
                e("s.%s = new(%s)" % (N, typ))
                e("if err := s.%s.decode(%s); err != nil {" % (N, args)); e(err); e("}")
        for f in fs:
            if f["sec"]:
                one(f, "t", f["name"])
        e("default:"); e("if err := decodeDummy(t, n); err != nil {")
        e("return fmt.Errorf(errDecodingType, %s, err)" % C); e("}"); e("}")
        for f in fs:
            if not f["sec"]:
                one(f, "params, value", "Prop" + f["name"])
        e('case "END":'); e('if value != "%s" {' % endname(r))
        e("return fmt.Errorf(errDecodingType, %s, ErrInvalidEnd)" % C); e("}"); e("break Loop"); e("}"); e("}")
        req = [f for f in fs if f["mode"] == "req"]
        if req:
            e("if " + " || ".join("!required" + f["name"] for f in req) + " {")
            e("return fmt.Errorf(errDecodingType, %s, ErrMissingRequired)" % C); e("}")
        for k, ns in r["reqs"]:
            ns = [name(x) for x in ns]
            if k == "AND":
                c = "t := s.%s == nil; " % ns[0] + " && ".join("t == (s.%s == nil)" % x for x in ns[1:])
            elif k == "OR":
                c = " && ".join("s.%s == nil" % x for x in ns)
            elif k == "ONE":
                c = " && ".join("s.%s != nil" % x for x in ns)
            else:
                c = "s.%s != nil && (" % ns[0] + " || ".join("s.%s == nil" % x for x in ns[1:]) + ")"
            e("if %s {" % c); e("return fmt.Errorf(errDecodingType, %s, ErrRequirementNotMet)" % C); e("}")
        e("return nil"); e("}")
        e("func (s *%s) encode(w writer) {" % T)
        alarm = r["key"].startswith("VALARM")
        if not alarm:
            e('w.WriteString("BEGIN:%s\\r\\n")' % r["key"])
        for f in fs:
            N = f["name"]
            if f["mode"] == "many":
                e("for n := range s.%s {" % N); e("s.%s[n].encode(w)" % N); e("}")
            elif f["mode"] == "req":
                e("s.%s.encode(w)" % N)
            else:
                e("if s.%s != nil {" % N); e("s.%s.encode(w)" % N); e("}")
        if not alarm:
            e('w.WriteString("END:%s\\r\\n")' % r["key"])
        e("}")
        e("func (s *%s) valid() error {" % T)
        for f in fs:
            N = f["name"]
            err = "return fmt.Errorf(errValidatingProp, %s, c%s, err)" % (C, N)
            if f["mode"] == "many":
                e("for n := range s.%s {" % N); e("if err := s.%s[n].valid(); err != nil {" % N); e(err)
                e("}"); e("}")
            elif f["mode"] == "req":
                e("if err := s.%s.valid(); err != nil {" % N); e(err); e("}")
            else:
                e("if s.%s != nil {" % N); e("if err := s.%s.valid(); err != nil {" % N); e(err); e("}"); e("}")
        e("return nil"); e("}")
    return o


def compare(fname, gen, stop):
    """The Go file up to the first line starting with [stop] must equal the generated lines."""
    text = read(fname)
    got = norm(text)
    cutpos = next(i for i, l in enumerate(got) if l.startswith(stop))
    got = got[:cutpos]
    for i, (a, b) in enumerate(zip(got, gen)):
        if a != b:
            sys.exit("%s differs at normalised line %d:\n  go:  %s\n  gen: %s" % (fname, i, a, b))
    if len(got) != len(gen):
        sys.exit("%s: %d lines, template gives %d" % (fname, len(got), len(gen)))
    print("%s: %d normalised lines equal to the template instance" % (fname, len(gen)))


def lines_of(fname, typ):
    """First and last line of a type's declaration and methods."""
    ls = read(fname).splitlines()
    start = next(i for i, l in enumerate(ls) if l.startswith("type %s " % typ))
    while ls[start - 1].startswith("//"):
        start -= 1
    end = start
    for i in range(start, len(ls)):
        if re.match(r"func \(\w+ \*?%s\) valid\(\)" % typ, ls[i]):
            end = next(j for j in range(i, len(ls)) if ls[j] == "}")
            break
    return start + 1, end + 1


def words(ws):
    return "[" + "; ".join('bs "%s"' % w for w in ws) + "]"


HEADER = """(** Table written by tools/check_tables.py, which first checks that every method of every type in
    /repo/%s is the instance of the template modelled in %s.v. *)
From Coq Require Import String List.
From Verif Require Import %s.
Import ListNotations.

"""


def emit(d, params, props, secs):
    with open(d + "/ParamTable.v", "w") as f:
        w = f.write
        w(HEADER % ("params.go", "Params", "Base Types Params"))
        w("Inductive paramid :=\n" + "\n".join("| Pm%s" % r["type"] for r in params) + ".\n\n")
        w("Definition all_params : list paramid :=\n  [" + "; ".join("Pm" + r["type"] for r in params) + "].\n\n")
        w("Definition param_spec (p : paramid) : bytes * pkind :=\n  match p with\n")
        for r in params:
            if r["vtype"] == "Boolean":
                k = "PKBool"
            elif r["vtype"] == "URI":
                k = "PKUri"
            elif r["vtype"] == "CalendarAddress":
                k = "PKAddrs"
            elif r["regex"]:
                k = "PKRegex"
            elif len(r["choices"]) == 1:
                k = 'PKUnit (bs "%s")' % r["choices"][0]
            elif r["choices"]:
                k = "PKEnum %s %s" % ("true" if r["free"] else "false", words(r["choices"]))
            elif r["multi"]:
                k = "PKTexts"
            else:
                k = "PKText " + ("true" if r["dq"] else "false")
            a, b = lines_of("params.go", "Param" + r["type"])
            w('  (* params.go:%d-%d *)\n  | Pm%s => (bs "%s", %s)\n' % (a, b, r["type"], r["key"], k))
        w("  end.\n")
    with open(d + "/PropTable.v", "w") as f:
        w = f.write
        w(HEADER % ("properties.go", "Props", "Base Types ParamTable"))
        w("""(** The three templates of genProperties.sh: a struct of parameters and one or several alternative
    values (with the VALUE word of each), an enumeration, or a renamed value type. *)
Inductive propkind :=
| MStruct (ps : list paramid) (vs : list (bytes * vkind))
| MEnum (ws : list bytes)
| MNew (k : vkind).

""")
        w("Inductive propid :=\n" + "\n".join("| Pr%s" % r["type"] for r in props) + ".\n\n")
        w("Definition all_props : list propid :=\n  [" + "; ".join("Pr" + r["type"] for r in props) + "].\n\n")
        w("Definition prop_spec (p : propid) : bytes * propkind :=\n  match p with\n")
        kn = {"Binary": "KBinary", "Boolean": "KBoolean", "CalendarAddress": "KCalendarAddress",
              "Date": "KDate", "DateTime": "KDateTime", "Duration": "KDuration", "TFloat": "KTFloat",
              "Integer": "KInteger", "Period": "KPeriod", "Recur": "KRecur", "Text": "KText",
              "MText": "KMText", "URI": "KURI", "UTCOffset": "KUTCOffset"}

        def kind(v):
            return kn.get(v) or kn[name(v)]
        for r in props:
            a, b = lines_of("properties.go", "Prop" + r["type"])
            if r["mode"] == 0:
                k = "MStruct [%s] [%s]" % ("; ".join("Pm" + name(p) for p in r["params"]),
                                          "; ".join('(bs "%s", %s)' % (v, kind(v)) for v in r["values"]))
            elif r["mode"] == 1:
                k = "MEnum " + words(r["values"])
            else:
                k = "MNew " + kind(r["values"][0])
            w('  (* properties.go:%d-%d *)\n  | Pr%s => (bs "%s", %s)\n' % (a, b, r["type"], r["key"], k))
        w("  end.\n")
    with open(d + "/SecTable.v", "w") as f:
        w = f.write
        w(HEADER % ("sections.go", "Sections", "Base Types PropTable"))
        w("Inductive secid :=\n" + "\n".join("| S%s" % r["type"] for r in secs) + ".\n\n")
        w("Definition all_secs : list secid :=\n  [" + "; ".join("S" + r["type"] for r in secs) + "].\n\n")
        w("""(** A field of a section: required, optional or repeated; a property, a section or an alarm. *)
Inductive fmode := FReq | FOpt | FMany.
Inductive ftype := FTProp (p : propid) | FTSec (s : secid) | FTAlarm.
Record field := Field { fd_key : bytes; fd_mode : fmode; fd_type : ftype }.

(** The extra conditions checked at the end of a section (genSections.sh), on field numbers. *)
Inductive req := RAnd (a b : nat) | ROr (a b : nat) | ROne (a b : nat) | RErgo (a b : nat).

(** [sp_name] is the word after BEGIN: and END:; [sp_own] says that the section writes these two
    lines itself (the alarm types leave them to Alarm.encode). *)
Record secspec := SecSpec { sp_name : bytes; sp_own : bool; sp_fields : list field; sp_reqs : list req }.

""")
        w("Definition sec_spec (s : secid) : secspec :=\n  match s with\n")
        for r in secs:
            a, b = lines_of("sections.go", r["type"])
            own = not r["key"].startswith("VALARM")
            w('  (* sections.go:%d-%d *)\n  | S%s => SecSpec (bs "%s") %s [\n' %
              (a, b, r["type"], endname(r), "true" if own else "false"))
            ents = []
            for x in r["fields"]:
                m = {"req": "FReq", "opt": "FOpt", "many": "FMany"}[x["mode"]]
                if x["sec"]:
                    t = "FTAlarm" if x["key"] == "VALARM" else "(FTSec S%s)" % x["name"]
                else:
                    t = "(FTProp Pr%s)" % x["name"]
                ents.append('      Field (bs "%s") %s %s' % (x["key"], m, t))
            w(";\n".join(ents))
            idx = {x["name"]: i for i, x in enumerate(r["fields"])}
            kk = {"AND": "RAnd", "OR": "ROr", "ONE": "ROne", "ERGO": "RErgo"}
            w("]\n      [" + "; ".join("%s %d %d" % (kk[k], idx[name(n[0])], idx[name(n[1])]) for k, n in r["reqs"]) + "]\n")
        w("  end.\n")


# --- error messages ------------------------------------------------------------------------------

def labels(params, props, secs):
    """The values of the constants c... and err..., and the texts of the errors."""
    consts, errs = {}, {}
    for f in ("params.go", "properties.go", "sections.go", "sections_alarm.go", "types.go", "tokeniser.go", "encoder.go"):
        for m in re.finditer(r'^\t(\w+) += "(.*)"$', read(f), re.M):
            consts[m.group(1)] = m.group(2)
        for m in re.finditer(r'^\t(Err\w+) += errors\.New\("(.*)"\)$', read(f), re.M):
            errs[m.group(1)] = m.group(2)
    formats = dict(errDecodingType="error decoding %s: %w", errValidatingType="error decoding %s: %w",
                   errDecodingProp="error decoding %s->%s: %w", errValidatingProp="error validating %s->%s: %w",
                   errMultiple="error decoding %s: multiple %s")
    for k, v in formats.items():
        if consts.get(k) != v:
            sys.exit("%s is %r" % (k, consts.get(k)))
    used = set()
    for f in ("params.go", "properties.go", "sections.go"):
        used |= set(re.findall(r"\b(c[A-Z]\w*)\b", read(f)))
    for c in used:
        if c not in consts:
            sys.exit("no constant " + c)
    print("%d names and %d errors" % (len(used), len(errs)))
    return consts, errs


def emit_labels(d, params, props, secs, consts, errs):
    with open(d + "/LabelTable.v", "w") as f:
        w = f.write
        w("""(** Table written by tools/check_tables.py: the names that stand in error messages, which are the
    constants of params.go:1248-1274, properties.go:4320-4375, sections.go:4207-4221 and types.go:1605-1614,
    and the texts of the errors. *)
From Coq Require Import String List.
From Verif Require Import Base Types ParamTable PropTable SecTable.
Import ListNotations.

""")

        def table(fn, ty, pre, rows, dflt=None):
            w("Definition %s (x : %s) : bytes :=\n  match x with\n" % (fn, ty))
            for n, v in rows:
                w('  | %s%s => bs "%s"\n' % (pre, n, v))
            if dflt:
                w("  | _ => %s\n" % dflt)
            w("  end.\n\n")
        table("param_label", "paramid", "Pm", [(r["type"], consts["c" + r["type"]]) for r in params])
        table("prop_label", "propid", "Pr", [(r["type"], consts["c" + r["type"]]) for r in props])
        table("sec_label", "secid", "S", [(r["type"], consts["c" + r["type"]]) for r in secs])
        kinds = []
        for r in props:
            if r["mode"] == 0:
                for v in r["values"]:
                    if name(v) not in kinds and v not in kinds:
                        kinds.append(name(v) if "c" + name(v) in consts else v)
        w("(** Kinds of values that no property with parameters has stand in no message. *)\n")
        table("kind_label", "vkind", "K", [(k, consts["c" + k]) for k in sorted(kinds)], "[]")
        w('Definition alarm_label : bytes := bs "%s".\nDefinition value_label : bytes := bs "%s".\n\n' % (consts["cAlarm"], consts["cValue"]))
        w("(** The text of an error; of those of the standard library, only io.ErrUnexpectedEOF has one here. *)\n")
        table("error_text", "gerr", "", sorted(errs.items()) + [("ErrUnexpectedEOF", "unexpected EOF")], "[]")


def emit_files(d):
    with open(d + "/GenFiles.v", "w") as f:
        f.write("""(** The texts of the files that describe the generated code: names.gen, params.gen, properties.gen and
    sections.gen, whole and unchanged. tools/check_tables.py checks that they are those of /repo. *)
From Coq Require Import String List.
From Verif Require Import Base.

""")
        for n in ("names", "params", "properties", "sections"):
            text = read(n + ".gen")
            f.write('(** %s.gen:1-%d *)\nDefinition %s_gen : bytes := bs "%s".\n\n' % (n, text.count("\n"), n, text.replace('"', '""')))


def main():
    params, props, secs = parse_params(), parse_props(), parse_sections()
    compare("params.go", go_params(params), "func decode6868")
    compare("properties.go", go_props(props) + ["var ("], "ErrDuplicateParam")
    compare("sections.go", go_sections(secs), "func decodeDummy")
    print("%d parameters, %d properties, %d sections" % (len(params), len(props), len(secs)))
    consts, errs = labels(params, props, secs)
    if len(sys.argv) == 3 and sys.argv[1] == "--emit":
        emit(sys.argv[2], params, props, secs)
        emit_labels(sys.argv[2], params, props, secs, consts, errs)
        emit_files(sys.argv[2])


main()
