#!/usr/bin/env python3
"""Writes rocq/theories/ConformTable.v: the cases of the test tables of /repo, with the texts they
expect, as inputs of the model.  Usage: gen_conform.py [REPO]"""
import os, re, sys

REPO = sys.argv[1] if len(sys.argv) > 1 else "/repo"
OUT = os.path.join(os.path.dirname(os.path.abspath(__file__)), "..", "rocq", "theories", "ConformTable.v")

TOK = re.compile(r'''\s+|//[^\n]*|(?P<raw>`[^`]*`)|(?P<str>"(?:[^"\\]|\\.)*")|(?P<num>-?\d+)|(?P<id>[A-Za-z_][A-Za-z_0-9.]*)|(?P<op>:=|==|.)''', re.S)

def lex(src, off=0):
    out = []
    line = src.count("\n", 0, off) + 1
    i = off
    while i < len(src):
        m = TOK.match(src, i)
        for k in ("raw", "str", "num", "id", "op"):
            if m.group(k) is not None:
                v = m.group(k)
                if k == "raw": v = v[1:-1]
                if k == "str": v = v[1:-1].replace('\\"', '"').replace("\\\\", "\\")
                out.append(("str" if k == "raw" else k, v, line, i))
        line += m.group(0).count("\n")
        i = m.end()
    return out

class Parser:
    def __init__(self, src, off):
        self.t, self.i, self.src = lex(src, off), 0, src
    def peek(self, n=0): return self.t[self.i + n]
    def op(self, v): return self.peek()[0] == "op" and self.peek()[1] == v
    def next(self): self.i += 1; return self.t[self.i - 1]
    def want(self, v):
        x = self.next(); assert x[1] == v, (x, v)
    def block(self):
        """the tokens of a block, after its opening brace, up to its closing one"""
        d, toks = 1, []
        while True:
            x = self.next()
            if x[0] == "op" and x[1] == "{": d += 1
            if x[0] == "op" and x[1] == "}": d -= 1
            if d == 0: return toks
            toks.append(x)
    def expr(self):
        k, v, line, _ = self.peek()
        if k in ("str", "num"): self.next(); return (k, v)
        if k == "op" and v == "(":
            self.next(); e = self.expr(); self.want(")"); return e
        assert k == "id", (k, v, line)
        self.next()
        if v == "func":
            self.want("("); ps = []
            d = 1
            while d:
                x = self.next()
                if x[1] == "(": d += 1
                if x[1] == ")": d -= 1
                if d: ps.append(x[1])
            while not self.op("{"): self.next()
            self.next()
            return ("func", "".join(ps) if "[" in ps else " ".join(ps), self.block(), line, ps)
        e = ("id", v)
        if self.op("["):
            self.next(); ps = []; d = 1
            while d:
                x = self.next()[1]; d += {"[": 1, "]": -1}.get(x, 0)
                if d: ps.append(x)
            e = ("id", "%s[%s]" % (v, "".join(ps)))
        while True:
            if self.op("("):
                self.next(); args = []
                while not self.op(")"):
                    args.append(self.expr())
                    if self.op(","): self.next()
                self.next(); e = ("call", e[1], args, line)
            elif self.op("{"):
                self.next(); fs = {}
                while not self.op("}"):
                    n = self.next()[1]; self.want(":"); fs[n] = self.expr()
                    if self.op(","): self.next()
                self.next(); e = ("lit", e[1], fs)
            else: return e

def coq(s): return '"' + s.replace('"', '""') + '"'
def ctext(s): return "(txt %s)" % coq(s)

class File:
    def __init__(self, name):
        self.name = name
        self.src = open(os.path.join(REPO, name)).read()
        self.alias = dict(re.findall(r"^\s*(\w+)\s*= ((?:Command|Event|Timeout)Stub\[[\w.]+\])$", self.src, re.M))
    # types and messages
    def typ(self, n):
        n = n[6:] if n.startswith("stubs.") else self.alias.get(n, n)
        m = re.fullmatch(r"(Command|Event|Timeout)Stub\[([\w.]+)\]", n)
        assert m, n
        return {"Command": "KCommand", "Event": "KEvent", "Timeout": "KTimeout"}[m.group(1)], "stubs.%sStub[%s]" % m.groups()
    def body(self, e):
        """the kind and body of a message"""
        if e[0] == "id":
            m = re.fullmatch(r"(Command|Event|Timeout)(([A-Z])\d)", e[1])
            k, n = self.typ("%sStub[Type%s]" % (m.group(1), m.group(3)))
            return k, "(body %s (CStr %s))" % (coq(n), coq(m.group(2)))
        assert e[0] == "lit", e
        k, n = self.typ(e[1])
        fs = dict(e[2])
        if "ValidationError" in fs:
            return k, "(invalid %s %s)" % (coq(n), coq(fs["ValidationError"][1]))
        c = fs.get("Content", ("str", ""))
        if c[0] == "str": return k, "(body %s (CStr %s))" % (coq(n), coq(c[1]))
        _, n2 = self.typ(c[1])
        c2 = c[2].get("Content", ("str", ""))
        return k, "(body %s (CEvent %s (CStr %s)))" % (coq(n), coq(n2), coq(c2[1]))
    def opt_body(self, e):
        return "None" if e == ("id", "nil") else "(Some %s)" % self.body(e)[1]
    # predicates
    def result(self, toks):
        s = " ".join(x[1] for x in toks)
        m = re.fullmatch(r"return errors.New \( (.*) \)", s)
        if m: return "RErr %s" % coq(m.group(1))
        m = re.fullmatch(r"panic \( (.*) \)", s)
        if m: return "RErr %s" % coq("panic: " + m.group(1))
        return {"return nil": "RNil", "return IgnoreMessage": "RIgnore"}[s]
    def pred(self, f):
        ps = f[4]
        ty = "".join(ps[1:] if ps and ps[0] == "m" else ps)
        toks = f[2]
        s = [x[1] for x in toks]
        if s[:1] == ["if"]:
            # if m == (LIT) { A } B
            assert s[1:4] == ["m", "==", "("]
            j = s.index(")"); lit = Parser(self.src, toks[4][3]).expr()
            a = toks[j + 2:s.index("}", j + 2)]; b = toks[s.index("}", j + 2) + 1:]
            k, bd = self.body(lit)
            r = "if same %s %s m then %s else %s" % (k, bd, self.result(a), self.result(b))
        elif s[:1] == ["switch"]:
            j = 3; r = ""
            while j < len(s) - 1:
                if s[j] == "case":
                    k, bd = self.body(Parser(self.src, toks[j + 1][3]).expr())
                    h = s.index(":", j)
                    n = min(x for x in range(h, len(s)) if s[x] in ("case", "default", "}"))
                    r += "if same %s %s m then %s else " % (k, bd, self.result(toks[h + 1:n])); j = n
                else:
                    h = s.index(":", j); r += self.result(toks[h + 1:len(s) - 1]); break
        else: r = self.result(toks)
        if ty in ("dogma.Command", "dogma.Event"):
            tp = "(iface %s %s)" % ({"dogma.Command": "KCommand", "dogma.Event": "KEvent"}[ty], coq(ty))
        else:
            k, n = self.typ(ty); tp = "(TConcrete (%s, %s))" % (k, coq(n))
        # the line of the entry of the function: that of its first instruction
        line = toks[0][2] if r == "RNil" else f[3]
        return tp, "(Some (fun _ m => %s))" % r, ctext("%s:%d" % (self.name, line))
    # functions given to ToSatisfy
    def stmts(self, toks, helpers):
        r, i = [], 0
        s = [x[1] for x in toks]
        while i < len(s):
            if s[i].startswith("t."):
                e = Parser(self.src, toks[i][3]).expr(); line = toks[i][2]
                args = [a[1] for a in e[2]]
                if args and e[1].endswith("f"): args = [args[0] % tuple(args[1:])]
                r.append("called M%s %s %d" % (e[1][2:], coq(args[0] if args else ""), line))
                i = self.skip(s, i + 1)
            elif s[i + 1] == ":=":
                p = Parser(self.src, toks[i + 2][3]); f = p.expr()
                helpers[s[i]] = self.stmts(f[2], helpers)
                i += 2 + p.i
            else:
                assert s[i] in helpers, s[i:]
                r.append("SInvoke (line %d) helper_fn %s" % (toks[i][2], helpers[s[i]])); i += 3
        return "(" + "".join(x + " (" for x in r) + "SRet" + ")" * len(r) + ")"
    def skip(self, s, i):
        d = 0
        while True:
            if s[i] == "(": d += 1
            if s[i] == ")": d -= 1
            i += 1
            if d == 0: return i
    # expectations and actions
    def exp(self, e):
        if e[0] == "id": return {"pass": "pass", "fail": "fail", "failBeforeAction": "fail_before", "nil": "ENil"}[e[1]]
        n, args = e[1], e[2]
        m = re.fullmatch(r"To(ExecuteCommand|RecordEvent)(OfType|Type\[(.*)\]|)", n)
        if m:
            k = "true" if m.group(1) == "ExecuteCommand" else "false"
            if m.group(2) == "": return "(EMessage %s %s)" % (k, self.opt_body(args[0]))
            if m.group(2) == "OfType": return "(EOfType %s %s)" % (k, self.opt_body(args[0]))
            return "(EType %s %s)" % (k, coq(self.typ(m.group(3))[1]))
        m = re.fullmatch(r"To(Only|)(ExecuteCommand|RecordEvent)s?Matching", n)
        if m:
            f = "M" + m.group(1) + m.group(2) + ("s" if m.group(1) else "")
            if args[0][0] == "id":
                k = "KCommand" if "Command" in n else "KEvent"
                return "(EMatch %s (iface %s \"\") None [])" % (f, k)
            return "(EMatch %s %s %s %s)" % ((f,) + self.pred(args[0]))
        if n in ("AllOf", "AnyOf", "NoneOf"):
            return "(EComp C%s [%s])" % (n[:-2], "; ".join(self.exp(x) for x in args))
        if n == "Not": return "(ENot %s)" % self.exp(args[0])
        if n == "ToRepeatedly":
            if args[2] == ("id", "nil"): f = "None"
            else:
                s = " ".join(x[1] for x in args[2][2])
                user = lambda x: {"nil": "None", "pass": "Some (XUser (static true None))", "fail": "Some (XUser (static false None))"}[x]
                cs = re.findall(r"case (\d) : return (\w+)", s)
                if cs: f = "(Some (fun i => match i with %s| _ => None end))" % "".join("| %s => %s " % (a, user(b)) for a, b in cs)
                else: f = "(Some (fun _ => %s))" % user(re.fullmatch(r"return (\w+)", s).group(1))
            return "(ERepeat %s (%s)%%Z %s)" % (ctext(args[0][1]), args[1][1], f)
        if n == "ToSatisfy":
            f = "None" if args[1] == ("id", "nil") else "(sat %s)" % self.stmts(args[1][2], {})
            return "(ESatisfy %s %s)" % (ctext(args[0][1]), f)
        raise Exception(n)
    def act(self, e):
        if e == ("id", "noop"): return "ENoop"
        n, args = e[1], e[2]
        if n == "executeCommandViaExecutor": return "(via_executor %s)" % self.body(args[0])[1]
        if n == "Call": return "call_nothing"
        return "(EBuilt %s)" % self.eact(e)
    def eact(self, e):
        n, args = e[1], e[2]
        if n in ("ExecuteCommand", "RecordEvent"):
            return "(EDispatch %s %s)" % ("true" if n[0] == "E" else "false", self.opt_body(args[0]))
        if n == "Call": return "(ECall None [])"
        if n == "AdvanceTime": return "(EAdvance None)"
        raise Exception(n)
    def opts(self, l):
        r = []
        for e in l:
            assert e[1] == "WithUnsafeOperationOptions", e
            for o in e[2]:
                m = re.fullmatch(r"engine.Enable(\w+)s", o[1]); t = m.group(1)
                t = {"Process": "Processe"}.get(t, t)
                ht = {"Aggregate": "HTAggregate", "Processe": "HTProcess", "Integration": "HTIntegration", "Projection": "HTProjection"}[t]
                r.append("OptType %s %s" % (ht, o[2][0][1]))
        return "[OptUnsafe [%s]]" % "; ".join(r) if r else "[]"
    def cases(self, app, mk):
        out = []
        for m in re.finditer(r"g\.Entry\(", self.src):
            e = Parser(self.src, m.start()).expr()
            out.append(mk(self, app, e[2], m))
        # Expect() in other tests, and what must be logged
        for m in re.finditer(r"g\.It\(", self.src):
            end = self.src.find("g.It(", m.end()); end = len(self.src) if end < 0 else end
            nxt = self.src.find("g.Entry(", m.end()); end = min(end, nxt if nxt > 0 else end)
            part = self.src[m.start():end]
            x = re.search(r"test\.Expect\(", part)
            ys = [y.group(1) or y.group(2) for y in re.finditer(r'ContainElement\(\s*(?:"((?:[^"\\]|\\.)*)"|`([^`]*)`),?\s*\)', part)]
            if x and ys and "Begin(" not in part.split("test.Expect(")[1]:
                e = Parser(self.src, m.start() + x.start()).expr()
                failed = "true" if "BeTrue" in part else "false"
                for y in ys:
                    out.append("CLogs %s %s %s %s %s" % (app, failed, self.act(e[2][0]), self.exp(e[2][1]), coq(y)))
            elif x and "expectReport(" in part and "rm :=" in part:
                e = Parser(self.src, m.start() + x.start()).expr()
                r = Parser(self.src, m.start() + part.index("expectReport(")).expr()
                ok = "false" if "BeTrue" in part else "true"
                out.append("CReport %s [] %s %s %s [%s]" % (app, self.act(e[2][0]), self.exp(e[2][1]), ok, "; ".join(coq(a[1]) for a in r[2])))
            y = re.search(r'PanicWith\(\s*(?:"((?:[^"\\]|\\.)*)"|`([^`]*)`),?\s*\)', part)
            if y:
                text = y.group(1) or y.group(2)
                f = Parser(self.src, m.start() + part.index("gm.Expect(func()") + len("gm.Expect(")).expr()
                toks = f[2]; k = 0
                if toks[0][1] == "var":
                    while toks[k][2] == toks[0][2]: k += 1
                e = Parser(self.src, toks[k][3]).expr()
                if e[1] in ("ExecuteCommand", "RecordEvent", "Call", "AdvanceTime"): out.append("CActPanics %s %s" % (self.eact(e), coq(text)))
                elif e[1].startswith("To") or e[1].endswith("Of") or e[1] == "Not": out.append("CPanics %s %s" % (self.exp(e), coq(text)))
        return out

def report(e): return "%s [%s]" % ("true" if e[0] == ("id", "expectPass") else "false", "; ".join(coq(a[1]) for a in e[1][2]))
def table(f, app, a, m): return "CReport %s %s %s %s %s" % (app, f.opts(a[5:]), f.act(a[1]), f.exp(a[2]), report(a[3:5]))
def static(f, app, a, m): return "CReport %s [] ENoop %s %s" % (app, f.exp(a[1]), report(a[2:4]))
def negated(f, app, a, m):
    return "CEnabled %s [\"<integration>\"] (EBuilt (EDispatch true %s)) %s %s" % (app, f.opt_body(("id", "CommandA1")), f.exp(a[1]), report(a[2:4]))
def satisfy(f, app, a, m):
    return "CReport %s [] ENoop (ESatisfy (txt \"<description>\") (sat %s)) %s" % (app, f.stmts(a[1][2], {}), report(a[2:4]))

# fact/logger_test.go
HANDLERS = {"aggregate": "HTAggregate", "process": "HTProcess", "integration": "HTIntegration", "projection": "HTProjection"}
FACTS = {  # arguments: h handler, i instance, r root, R optional root, e envelope, E optional envelope, v new envelope, x errors, X optional error, n time, t enabled types, m enabled handlers, s text, k reason
    "DispatchCycleBegun": "entm", "DispatchCycleCompleted": "extm", "DispatchBegun": "e", "DispatchCompleted": "ex",
    "HandlingBegun": "he", "HandlingCompleted": "heX", "HandlingSkipped": "hek", "TickCycleBegun": "ntm", "TickCycleCompleted": "xtm",
    "TickBegun": "h", "TickCompleted": "hX", "AggregateInstanceLoaded": "hire", "AggregateInstanceNotFound": "hie",
    "AggregateInstanceCreated": "hire", "AggregateInstanceDestroyed": "hire", "AggregateInstanceDestructionReverted": "hire",
    "EventRecordedByAggregate": "hirev", "MessageLoggedByAggregate": "hires", "ProcessInstanceLoaded": "hire", "ProcessEventIgnored": "he",
    "ProcessTimeoutIgnored": "hie", "ProcessInstanceNotFound": "hie", "ProcessInstanceBegun": "hiRe", "ProcessInstanceEnded": "hire",
    "ProcessInstanceEndingReverted": "hire", "CommandExecutedByProcess": "hirev", "TimeoutScheduledByProcess": "hirev",
    "MessageLoggedByProcess": "hires", "EventRecordedByIntegration": "hev", "MessageLoggedByIntegration": "hes",
    "ProjectionCompactionBegun": "h", "ProjectionCompactionCompleted": "hX", "MessageLoggedByProjection": "hEs"}
def arg(lit, k):
    """the source of the field whose name starts so"""
    m = re.search(r"\b%s:\s*(.*?),?\n" % k, lit)
    return m.group(1) if m else None
def logger_cases():
    src = open(os.path.join(REPO, "fact", "logger_test.go")).read()
    out = []
    for part in src.split("g.Entry(")[1:]:
        p = Parser(part, 0)
        p.next(); p.want(","); want = p.next()[1]; p.want(","); name = p.next()[1]
        p.want("{"); a = p.peek()[3]; p.block(); b = p.t[p.i - 1][3]
        lit = part[a:b] + "\n"
        f = [name]
        for c in FACTS[name]:
            h = arg(lit, "Handler"); env = arg(lit, "Envelope"); err = arg(lit, "Error")
            cenv = "log_%s" % env if env else "log_command"
            if c == "h": f.append('(mkHId "<%s>" %s)' % (h, HANDLERS[h]) if h else '(mkHId "" HTAggregate)')
            if c == "i": f.append(coq(arg(lit, "InstanceID").strip('"')))
            if c == "r": f.append("tt")
            if c == "R": f.append("(Some tt)")
            if c == "e": f.append(cenv)
            if c == "E": f.append("(Some %s)" % cenv if env else "None")
            if c == "v":
                m = re.search(r'(\w+)\.New(Event|Command|Timeout)\(\s*"20",\s*(\w+)A1', lit)
                f.append("(log_new %s K%s)" % ("log_" + m.group(1), m.group(2)))
            if c == "x": f.append('[EUser "<error>"]' if err else "[]")
            if c == "X": f.append('(Some (EUser "<error>"))' if err else "None")
            if c == "n": f.append("log_now")
            if c == "t": f.append("(mkETypes %s)" % " ".join("true" if re.search(t + r"HandlerType:\s*true", lit) else "false" for t in ("Aggregate", "Process", "Integration", "Projection")) if "EnabledHandlerTypes" in lit else "(mkETypes false false false false)")
            if c == "m": f.append("(list_to_map [%s])" % "; ".join("(%s, %s)" % (coq(x), y) for x, y in re.findall(r'"(<\w+>)":\s*(true|false)', lit)))
            if c == "s": f.append(coq(arg(lit, "LogFormat").strip('"') % re.search(r'\[\]any\{"(.*?)"\}', lit).group(1)))
            if c == "k": f.append({"HandlerTypeDisabled": "SRType", "IndividualHandlerDisabled": "SRIndividual", "IndividualHandlerDisabledByConfiguration": "SRConfiguration"}[arg(lit, "Reason")])
        out.append("(%s, %s)" % (coq(want), " ".join(f)))
    return out
def inflect_cases():
    src = open(os.path.join(REPO, "internal", "inflect", "inflect_test.go")).read()
    return ["(K%s, %s, %s)" % (k, coq(a), coq(b)) for k, a, b in re.findall(r'entry\(message\.(\w+)Kind, "(.*?)", "(.*?)"\)', src)]

FILES = [
    ("expectation.message.command", "(app_command false)", table),
    ("expectation.message.commandcall", "app_commandcall", table),
    ("expectation.message.event", "(app_event false true)", table),
    ("expectation.message.eventcall", "app_eventcall", table),
    ("expectation.messagetype.command", "(app_command false)", table),
    ("expectation.messagetype.commandcall", "app_commandcall", table),
    ("expectation.messagetype.event", "(app_event false true)", table),
    ("expectation.messagetype.eventcall", "app_eventcall", table),
    ("expectation.messagematch.command", "(app_command true)", table),
    ("expectation.messagematch.commandonly", "app_commandonly", table),
    ("expectation.messagematch.event", "(app_event true false)", table),
    ("expectation.messagematch.eventonly", "app_eventonly", table),
    ("expectation.not", "app_not", negated),
    ("expectation.composite", "[]", static),
    ("expectation.repeat", "[]", static),
    ("expectation.satisfy", "[]", satisfy),
]

def main():
    out = ["(** * Cases of the test tables of /repo, written by tools/gen_conform.py. *)",
           "From Verif Require Import ConformBase.", "Local Open Scope string_scope.", ""]
    total = 0
    for name, app, mk in FILES:
        cs = File(name + "_test.go").cases(app, mk)
        total += len(cs)
        ident = name.replace("expectation.", "").replace(".", "_")
        out.append("(** %s_test.go *)" % name)
        out.append("Definition cases_%s : list Case := [\n  %s]." % (ident, ";\n  ".join(cs)))
        out.append("Example conform_%s : forallb conforms cases_%s = true. Proof. vm_compute. reflexivity. Qed.\n" % (ident, ident))
    for ident, name, ty, cs in (("logger", "fact/logger_test.go", "string * Fact", logger_cases()),
                                ("inflect", "internal/inflect/inflect_test.go", "Kind * string * string", inflect_cases())):
        total += len(cs)
        out.append("(** %s *)" % name)
        out.append("Definition cases_%s : list (%s) := [\n  %s]." % (ident, ty, ";\n  ".join(cs)))
        out.append("Example conform_%s : forallb %s_conforms cases_%s = true. Proof. vm_compute. reflexivity. Qed.\n" % (ident, ident, ident))
    open(OUT, "w").write("\n".join(out))
    print(total, "cases")

if __name__ == "__main__": main()
