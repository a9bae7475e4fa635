#!/usr/bin/env python3
"""Writes RepoTypes.v, RepoTexts.v and RepoInputs.v: the tests of /repo, to be run on the model."""
import re
src = open("/repo/types_test.go").read()
DAYS = ["UnknownDay", "Sunday", "Monday", "Tuesday", "Wednesday", "Thursday", "Friday", "Saturday"]
FREQ = ["Secondly", "Minutely", "Hourly", "Daily", "Weekly", "Monthly", "Yearly"]
MONTHS = ["", "January", "February", "March", "April", "May", "June", "July", "August", "September", "October", "November", "December"]

def text(s):
    """A Go string literal as bytes."""
    s = s[1:-1].replace("\\\\", "\0").replace("\\n", "\n").replace("\0", "\\")
    out = []
    for i, part in enumerate(s.split("\n")):
        if i: out.append("[LF]")
        if part: out.append('bs "%s"' % part)
    return "(" + " ++ ".join(out) + ")" if out else "[]"

def moment(s):
    a = re.match(r"time\.Date\((.*)\)$", s).group(1).split(", ")
    loc = {"time.UTC": "LUTC", "time.Local": "LLocal", "l": "new_york"}[a[7]]
    return "(go_date %s %s)" % (" ".join(a[:7]), loc)

def num(s):
    return "(%s)" % s if s.startswith("-") else s
def nums(s, names=None):
    l = [x.strip() for x in s.split(",") if x.strip()]
    return "[" + "; ".join(num(str(names.index(x)) if names else x) for x in l) + "]"

def duration(s):
    f = dict(re.findall(r"(\w+): (\w+)", s))
    return "(Duration %s %s)" % (f.get("Negative", "false"), " ".join(f.get(k, "0") for k in ("Weeks", "Days", "Hours", "Minutes", "Seconds")))

def recur(s):
    f = {}
    for k, v in re.findall(r"(\w+):\s+(time\.Date\(.*?\)|\[\]\w+\{(?:.|\n)*?\n?\t*\}(?=,\n)|[\w-]+)", s): f.setdefault(k, v)
    lst = lambda k, names=None: nums(re.match(r"\[\]\w+\{((?:.|\n)*)\}$", f[k]).group(1), names) if k in f else "[]"
    days = "[" + "; ".join("DayRecur %d %s" % (DAYS.index(d), num(o or "0")) for d, o in re.findall(r"\{Day: (\w+)(?:, Occurrence: (-?\d+))?\}", s)) + "]"
    return "(Recur %d %d %s %s %s %s %s)" % (FREQ.index(f.get("Frequency", "Secondly")), DAYS.index(f.get("WeekStart", "UnknownDay")), f.get("UntilTime", "false"),
        moment(f["Until"]) if "Until" in f else "zero_time", f.get("Count", "0"), f.get("Interval", "0"),
        " ".join([lst("BySecond"), lst("ByMinute"), lst("ByHour"), days, lst("ByMonthDay"), lst("ByYearDay"), lst("ByWeekNum"), lst("ByMonth", MONTHS), lst("BySetPos")]))

def value(kind, m):
    if kind == "Binary": return "VBinary (bs \"%s\")" % "".join(re.findall(r"'(.)'", m))
    if kind == "Boolean": return "VBoolean %s" % {"tr": "true", "fa": "false"}[m]
    if kind == "Duration": return "VDuration " + duration(m)
    if kind == "Recur": return "VRecur " + recur(m)
    if kind == "Text": return "VText " + text(re.search(r'".*"', m).group(0))
    if kind == "UTCOffset": return "VUTCOffset " + num(re.search(r"\((.*)\)", m).group(1))
    if kind == "Period":
        t = [moment(x) for x in re.findall(r"time\.Date\(.*?\)", m)]
        d = re.search(r"Duration\{(.*?)\}", m)
        return "VPeriod (Period %s %s %s)" % (t[0], t[1] if len(t) > 1 else "zero_time", duration(d.group(1)) if d else "zero_duration")
    return "V%s %s" % (kind, moment(re.search(r"time\.Date\(.*?\)", m).group(0)))

out = ['''(** The tests of types_test.go, run on the model. These are tests and not proofs: they show that the model
    does what the authors of the code expect of it. Written by tools/gen_repo_tests.py. *)
From Coq Require Import String Ascii ZArith Bool List.
From Verif Require Import Base Tokeniser GoTime Types RepoEnv.
Import ListNotations.
Local Open Scope Z_scope.

''']
total = 0
for name, body in re.findall(r"func Test(\w+)\(t \*testing\.T\) \{((?:.|\n)*?)\n\}\n", src):
    cases = re.findall(r"\n\t\t\{(?: // \d+)?\n((?:.|\n)*?)\n\t\t\},", body)
    good, bad = [], []
    for c in cases:
        f = dict(re.findall(r"\t\t\t(\w+):\s+((?:.|\n)*?),(?=\n\t\t\t\w|$)", c))
        kind = name
        ps = "[" + "; ".join('(bs "%s", bs "%s")' % x for x in re.findall(r'"(\w+)": "([^"]*)"', f.get("Params", ""))) + "]"
        data = text(f.get("Data", '""'))
        total += 1
        if "Error" in f: bad.append("(%s, %s, %s)" % (ps, data, f["Error"]))
        else: good.append("(%s, %s, %s, %s)" % (ps, data, value(kind, f["Match"]), text(f["Output"])))
    if good: out.append("Example %s_read : Forall (read_written K%s) [\n  %s].\nProof. repeat (apply Forall_cons; [hnf; split; [|split]; run|]). apply Forall_nil. Qed.\n" % (name.lower(), name, ";\n  ".join(good)))
    if bad: out.append("Example %s_refused : Forall (refused K%s) [\n  %s].\nProof. repeat (apply Forall_cons; [hnf; run|]). apply Forall_nil. Qed.\n" % (name.lower(), name, ";\n  ".join(bad)))
open("/verif/rocq/theories/RepoTypes.v", "w").write("".join(out))
print(total)

def plain(b):
    """Bytes as a Coq term."""
    out, cur = [], ""
    def flush():
        nonlocal cur
        if cur: out.append('bs "%s"' % cur.replace('"', '""'))
        cur = ""
    for c in b:
        if 32 <= c < 127: cur += chr(c)
        else:
            flush()
            if out and out[-1] == "[CR]" and c == 10: out[-1] = "CRLF"
            else: out.append({13: "[CR]", 10: "[LF]"}.get(c, "[chr %d]" % c))
    flush()
    return "(" + " ++ ".join(out) + ")" if out else "[]"

def lines(b):
    """Lines that all end in CR LF."""
    l = b.decode().split("\r\n")
    return "(lines [%s]%%string)" % ";\n     ".join('"%s"' % x.replace('"', '""') for x in l[:-1]) if l[-1] == "" else None

def gobytes(s):
    """Go string literals joined by plus signs."""
    out = b""
    for lit in re.findall(r'"((?:[^"\\]|\\.)*)"', s):
        i, enc = 0, lit.encode()
        while i < len(enc):
            if enc[i] == 92:
                c = chr(enc[i + 1])
                if c == "x": out += bytes([int(enc[i + 2:i + 4], 16)]); i += 4; continue
                out += {"r": b"\r", "n": b"\n", "\\": b"\\", '"': b'"'}[c]; i += 2
            else: out += enc[i:i + 1]; i += 1
    return out

lit = r'"(?:[^"\\]|\\.)*"'
texts = ['''(** The tests of folder_test.go, unfolder_test.go and tokeniser_test.go, run on the model: tests and not
    proofs, as in RepoTypes.v. Written by tools/gen_repo_tests.py. *)
From Coq Require Import String Ascii ZArith Bool List.
From Verif Require Import Base Utf8 Folder Unfolder Tokeniser RepoEnv.
Import ListNotations.
Local Open Scope Z_scope.

''']
for f, name in (("folder", "folded"), ("unfolder", "unfolded")):
    body = open("/repo/%s_test.go" % f).read()
    cases = re.findall(r"^\t\t\{(%s), (%s)\},$" % (lit, lit), body, re.M)
    print(f, len(cases))
    texts.append("Example %s : Forall %s [\n  %s].\nProof. repeat (apply Forall_cons; [hnf; split; run|]). apply Forall_nil. Qed.\n" % (f + "_test", name, ";\n  ".join("(%s, %s)" % (plain(gobytes(a)), plain(gobytes(b))) for a, b in cases)))
body = open("/repo/tokeniser_test.go").read()
good, bad = [], []
for c in re.findall(r"\n\t\t\{\n((?:.|\n)*?)\n\t\t\},", body):
    data = plain(gobytes(re.search(r"Input:\s+(%s)" % lit, c).group(1)))
    err = re.search(r"Error:\s+(\w+)", c)
    if err: bad.append("(%s, %s)" % (data, err.group(1)))
    else: good.append("(%s, [%s])" % (data, "; ".join("Token %s %s" % (t, plain(gobytes(d))) for t, d in re.findall(r"Type: (token\w+),\s+Data: (%s)" % lit, c))))
print("tokeniser", len(good), len(bad))
texts.append("Example tokeniser_read : Forall line_read [\n  %s].\nProof. repeat (apply Forall_cons; [hnf; run|]). apply Forall_nil. Qed.\n" % ";\n  ".join(good))
texts.append("Example tokeniser_refused : Forall line_refused [\n  %s].\nProof. repeat (apply Forall_cons; [hnf; run|]). apply Forall_nil. Qed.\n" % ";\n  ".join(bad))
open("/verif/rocq/theories/RepoTexts.v", "w").write("".join(texts))

def concats(body, key):
    return [gobytes(x) for x in re.findall(r"^\t\t\t%s:\s+(%s(?:\s*\+\s*%s)*),$" % (key, lit, lit), body, re.M)]
ins = concats(open("/repo/decoder_test.go").read(), "Input")
outs = concats(open("/repo/encoder_test.go").read(), "Output")
print("calendars", len(ins), len(outs))
s = ['''(** The texts of the calendars of decoder_test.go, encoder_test.go and examples_test.go. Written by
    tools/gen_repo_tests.py. *)
From Coq Require Import String Ascii ZArith Bool List.
From Verif Require Import Base Sample.
Import ListNotations.

''']
for i, b in enumerate(ins): s.append("Definition decoder_input%d : bytes :=\n  %s.\n" % (i + 2, lines(b)))
for i, b in enumerate(outs): s.append("Definition encoder_output%d : bytes :=\n  %s.\n" % (i + 1, lines(b)))
ex = gobytes(re.search(r"const icsData = (%s(?:\s*\+\s*%s)*)" % (lit, lit), open("/repo/examples_test.go").read()).group(1))
s.append("Definition example_data : bytes :=\n  removelast (removelast %s).\n" % lines(ex + b"\r\n"))
open("/verif/rocq/theories/RepoInputs.v", "w").write("".join(s))
