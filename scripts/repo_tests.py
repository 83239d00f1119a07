#!/usr/bin/env python3
"""Generates rocq/theories/RepoTests.v from /repo/tests: the project's own unit tests, run on the model.
The JSON documents are taken from the C++ sources; inputs and expectations are transcribed below."""
import re, os, sys, unicodedata
repo = sys.argv[1] if len(sys.argv) > 1 else "/repo"
out = []

# ---- C++ string literals
def literals(src):
    """The string literals of a source text, adjacent ones joined: (is_wide, value as str), in order."""
    res, pos = [], 0
    tok = re.compile(r'(L?)"((?:\\.|[^"\\])*)"', re.S)
    last = None
    for m in tok.finditer(src):
        body = m.group(2)
        def esc(e):
            g = e.group(0)
            if g[1] == 'u' and g[2] == '{': return chr(int(g[3:-1], 16))
            if g[1] == 'u': return chr(int(g[2:], 16))
            if g[1] == 'x': return chr(0xDC00 + int(g[2:], 16)) # a lone byte
            return {'n': '\n', 't': '\t', 'r': '\r', '"': '"', '\\': '\\'}[g[1]]
        body = re.sub(r'\\u\{[0-9a-fA-F]+\}|\\u[0-9a-fA-F]{4}|\\x[0-9a-fA-F]+|\\.', esc, body)
        if last is not None and src[last:m.start()].strip() == "" and m.group(1) == "":
            res[-1] = (res[-1][0], res[-1][1] + body)
        else:
            res.append((m.group(1) == "L", body))
        last = m.end()
    return res

def tests(name):
    src = open(os.path.join(repo, "tests", name), encoding="utf-8").read()
    parts = re.split(r'^TEST\((\w+), (\w+)\) \{', src, flags=re.M)
    return {(parts[i], parts[i + 1]): parts[i + 2] for i in range(1, len(parts), 3)}

# ---- JSON with raw strings
def parse(s):
    def ws(i):
        while i < len(s) and s[i] in " \t\r\n": i += 1
        return i
    def string(i):
        j = i + 1
        while s[j] != '"': j += 2 if s[j] == '\\' else 1
        return s[i + 1:j], j + 1
    def value(i):
        i = ws(i)
        if s[i] == '{':
            l, i = [], ws(i + 1)
            while s[i] != '}':
                k, i = string(ws(i)); i = ws(i); assert s[i] == ':'
                v, i = value(i + 1); l.append((k, v)); i = ws(i)
                if s[i] == ',': i = ws(i + 1)
            return ('obj', l), i + 1
        if s[i] == '[':
            l, i = [], ws(i + 1)
            while s[i] != ']':
                v, i = value(i); l.append(v); i = ws(i)
                if s[i] == ',': i = ws(i + 1)
            return ('arr', l), i + 1
        if s[i] == '"':
            v, i = string(i); return ('str', v), i
        for k, v in (('null', 'JNull'), ('true', 'JBool true'), ('false', 'JBool false')):
            if s.startswith(k, i): return ('lit', v), i + len(k)
        m = re.match(r'-?\d+(\.\d+)?', s[i:])
        if m.group(1):
            assert m.group(0) == '1.0'
            return ('lit', 'JFloat (QArith_base.Qmake 1 1)'), i + m.end()
        return ('lit', 'JInt (%s)%%Z' % m.group(0)), i + m.end()
    v, i = value(0)
    assert s[i:].strip() in ('', '}'), s[i:]   # one document of model.cpp has a brace too many, which simdjson's on-demand parser does not reach
    return v

def coq_str(x):
    if all(0xDC00 > ord(c) >= 32 and ord(c) != 127 or ord(c) > 0xDFFF for c in x): return '(str "%s")' % x.replace('"', '""')
    b = b''.join(bytes([ord(c) - 0xDC00]) if 0xDC00 <= ord(c) <= 0xDCFF else c.encode() for c in x)
    return '([' + '; '.join(map(str, b)) + ']%N)'
def coq_wide(x):
    if all(32 <= ord(c) < 127 for c in x): return '(str "%s")' % x.replace('"', '""')
    return '([' + '; '.join(map(str, map(ord, x))) + ']%N)'
def coq_json(v):
    k, x = v
    if k == 'lit': return x
    if k == 'str': return 'JStr %s' % coq_str(x)
    if k == 'arr': return 'JArr [' + '; '.join(map(coq_json, x)) + ']'
    return 'JObj [' + '; '.join('(%s, %s)' % (coq_str(a), coq_json(b)) for a, b in x) + ']'

class T:
    def __init__(self, file):
        self.file, self.t = file, tests(file)
    def lits(self, suite, name): return literals(self.t[(suite, name)])
    def json(self, suite, name, n=0):
        js = [x for w, x in self.lits(suite, name) if not w and x[:2] in ('{"', '[{')]
        return coq_json(parse(js[n]))
def jdef(name, term): out.append("Definition %s : json := %s." % (name, term))
def case(t, suite, name, stmts):
    out.append("(** tests/%s: TEST(%s, %s) *)" % (t.file, suite, name))
    out.append("Example %s_%s : %s.\nProof. repeat split; vm_compute; reflexivity. Qed.\n" % (suite, name, " /\\\n  ".join(stmts)))

# ---- answers of the libraries on the strings of the tests
norms = []   # (form, input, output)
lowers, marks, regs = {}, set(), []
def saw(s):
    for f in ("NFC", "NFD", "NFKC", "NFKD"):
        r = unicodedata.normalize(f, s)
        if r != s and (f, s, r) not in norms: norms.append((f, s, r))
    for c in s + unicodedata.normalize("NFKD", s):
        if unicodedata.category(c) == "Mn": marks.add(ord(c))
        if c.lower() != c and len(c.lower()) == 1: lowers[ord(c)] = ord(c.lower())
def split_regex(s):
    # the pattern of the tests with \p{L}, \p{N} on ASCII
    return [m.span() for m in re.finditer(r"(?i:'s|'t|'re|'ve|'m|'ll|'d)|[^\r\nA-Za-z0-9]?[A-Za-z]+|[0-9]{1,3}| ?[^\sA-Za-z0-9]+[\r\n]*|\s*[\r\n]+|\s+(?!\S)|\s+", s)]

# ---- common.cpp
t = T("common.cpp")
s = "Hello, 世界!"
case(t, "CommonTest", "ConvertToString", ["convert_to_string %s = Ok %s" % (coq_wide(s), coq_str(s))])
case(t, "CommonTest", "ConvertFromString", ["convert_from_string %s = Ok %s" % (coq_str(s), coq_wide(s))])

# ---- normalizer.cpp: every TEST is (json, L"input", L"expected") or an Error
t = T("normalizer.cpp")
for (suite, name), body in t.t.items():
    l = t.lits(suite, name)
    j = "%s_%s_json" % (suite, name)
    jdef(j, t.json(suite, name))
    if name == "Error":
        bad = [x for w, x in l if not w and x[:2] not in ('{"', '[{')]
        assert len(bad) == 1
        # std::range_error is a std::runtime_error
        case(t, suite, name, ["normalized_by %s (convert_from_string %s) = Throw RangeError" % (j, coq_str(bad[0]))])
    else:
        wide = [x for w, x in l if w]
        assert len(wide) == 2, (suite, name, wide)
        inp, exp = (wide[1], wide[0]) if body.index("NormalizedString(") > body.index("EXPECT_EQ") else (wide[0], wide[1])
        saw(inp)
        case(t, suite, name, ["normalized_by %s (Ok %s) = Ok %s" % (j, coq_wide(inp), coq_wide(exp))])

# ---- pre_tokenizer.cpp
t = T("pre_tokenizer.cpp")
for (suite, name), body in t.t.items():
    j = "%s_%s_json" % (suite, name)
    jdef(j, t.json(suite, name))
    stmts = []
    for blk in body.split("validate_splits")[:-1]:
        inp = [x for w, x in literals(blk) if w][-1]
        exp = blk[blk.rindex("expected = {"):blk.rindex("got =")]
        sp = [(literals(a)[0][1], b, c) for a, b, c in re.findall(r'Split\(("[^"]*"),\s*\{(\d+),\s*(\d+)\}\)', exp)]
        assert len(sp) == exp.count("Split(")
        regs.append(inp)
        stmts.append("cut_by %s %s = Ok [%s]" % (j, coq_wide(inp), "; ".join("(%s, (%s, %s))" % (coq_str(a), b, c) for a, b, c in sp)))
    case(t, suite, name, stmts)

# ---- model.cpp
t = T("model.cpp")
for (suite, name), body in t.t.items():
    stmts, k = [], 0
    nj = len(re.findall(r"get_model_from_string\(", body))
    js = []
    for i in range(nj):
        j = "%s_%s_json%s" % (suite, name, "" if i == 0 else str(i + 1))
        jdef(j, t.json(suite, name, i)); js.append(j)
    inp = exp = None
    for blk in body.split("assert_tokens")[:-1]:
        if "get_model_from_string(" in blk:
            j = js[k]; k += 1
        w = [x for w, x in literals(blk) if w]
        if w: inp = w[-1]
        e = blk[max(blk.rfind("expected = {"), 0):]
        toks = [(a, literals(v)[0][1], o, z) for a, v, o, z in re.findall(r'Token\((\d+),\s*("[^"]*"),\s*\{(\d+),\s*([^}]*)\}\)', e)]
        assert toks and len(toks) == e.count("Token(")
        stmts.append("tokens_by %s %s = Ok [%s]" % (j, coq_wide(inp), "; ".join("mkTok (%s)%%Z (%s) (%s, %s)" % (a, coq_str(v), o, z if z.isdigit() else str(len(inp))) for a, v, o, z in toks)))
    case(t, suite, name, stmts)

# ---- decoder.cpp
t = T("decoder.cpp")
for (suite, name), body in t.t.items():
    j = "%s_%s_json" % (suite, name)
    jdef(j, t.json(suite, name))
    def vec(what):
        m = re.search(r'%s = \{(.*?)\};' % what, body, re.S)
        return [literals(x)[0][1] for x in re.findall(r'"[^"]*"', m.group(1))]
    case(t, suite, name, ["decoded_by %s [%s] = Ok [%s]" % (j, "; ".join(map(coq_str, vec("input"))), "; ".join(map(coq_str, vec("expected"))))])

# ---- encodings, as written in the tests
def args(src):
    """top-level arguments of a braced or parenthesised list"""
    d, cur, l, q = 0, "", [], False
    for i, c in enumerate(src):
        if c == '"' and src[i - 1] != '\\': q = not q
        if not q and c in "{(": d += 1
        if not q and c in "})": d -= 1
        if not q and c == "," and d == 0: l.append(cur.strip()); cur = ""
        else: cur += c
    if cur.strip(): l.append(cur.strip())
    return l
def inside(x): return args(x.strip()[1:-1])
def enc(src, over="[]"):
    a = args(src)
    # constructor order: ids, type_ids, tokens, words, offsets, special_tokens_mask, attention_mask (common.h)
    nums = lambda x: "([" + "; ".join(inside(x)) + "])%Z"
    toks = "[" + "; ".join(coq_str(literals(x)[0][1]) for x in inside(x3)) + "]" if (x3 := a[2]) else ""
    words = "[" + "; ".join("None" if "nullopt" in x else "Some %s" % x for x in inside(a[3])) + "]"
    offs = "[" + "; ".join("(" + ", ".join(inside(x)) + ")" for x in inside(a[4])) + "]"
    return "(mkEnc %s %s %s %s %s %s %s %s)" % (nums(a[0]), nums(a[1]), toks, words, offs, nums(a[5]), nums(a[6]), over)
def call(body, start):
    """the text between the parentheses of the call that opens at or after [start]"""
    i = body.index("(", start); d = 0; q = False
    for k in range(i, len(body)):
        c = body[k]
        if c == '"' and body[k - 1] != '\\': q = not q
        if not q and c == "(": d += 1
        if not q and c == ")":
            d -= 1
            if d == 0: return body[i + 1:k], k
    raise ValueError
t = T("post_processor.cpp")
for (suite, name), body in t.t.items():
    j = "%s_%s_json" % (suite, name)
    jdef(j, t.json(suite, name))
    inp, _ = call(body, body.index("Encoding input_encoding"))
    exp, _ = call(body, body.index("Encoding expected"))
    flag = re.search(r"process\(input_encoding, (true|false)\)", body).group(1)
    case(t, suite, name, ["processed_by %s %s %s = Ok %s" % (j, enc(inp), flag, enc(exp))])
t = T("utils.cpp")
for (suite, name), body in t.t.items():
    j = "%s_%s_json" % (suite, name)
    jdef(j, t.json(suite, name))
    inp, _ = call(body, body.index("Encoding input_encoding"))
    exp, _ = call(body, body.index("Encoding expected"))
    over = "[]"
    if "overflowing = {" in body:
        o, _ = call(body, body.index("overflowing = {") + 14)
        over = "[" + enc(o) + "]"
    f = "truncated_by" if suite == "TruncationTest" else "padded_by"
    case(t, suite, name, ["%s %s %s = Ok %s" % (f, j, enc(inp), enc(exp, over))])

# ---- added_vocabulary.cpp
t = T("added_vocabulary.cpp")
(suite, name), body = list(t.t.items())[0]
j = "%s_%s_json" % (suite, name)
jdef(j, t.json(suite, name))
inp = [x for w, x in literals(body) if w][0]
sp = [(literals(a)[0][1], b, c) for a, b, c in re.findall(r'Split\(("[^"]*"),\s*\{(\d+),\s*(\d+)\}\)', body)]
vocab = [(literals(a)[0][1], b) for a, b in re.findall(r'\{("[^"]*"), (\d+)\},', body)]
assert len(sp) == 4 and len(vocab) == 5
case(t, suite, name, ["extracted_by %s [%s] %s = Ok [%s]" % (j, "; ".join("(%s, (%s)%%Z)" % (coq_str(a), b) for a, b in vocab), coq_wide(inp), "; ".join("(%s, (%s, %s))" % (coq_str(a), b, c) for a, b, c in sp))])

# ---- tokenizer.cpp
t = T("tokenizer.cpp")
body = t.t[("TokenizerTest", "Success")]
jdef("TokenizerTest_json", t.json("TokenizerTest", "Success", 0))
jdef("TokenizerTest_json2", t.json("TokenizerTest", "Success", 1))
inp = [x for w, x in literals(body) if w]
assert inp == ["Hello World!", "Hello World!"]
saw(inp[0]); saw(inp[0].lower())
e1, k = call(body, body.index("Encoding expected"))
e1 = e1.strip(); e1 = call(e1, 0)[0] if e1.startswith("Encoding") else e1
e1, _ = call(body, body.index("expected = Encoding"))
e2, _ = call(body, body.index("expected = Encoding", body.index("expected = Encoding") + 10))
case(t, "TokenizerTest", "Success", ["encoded_by TokenizerTest_json (%s) true = Ok %s" % (coq_wide(inp[0]), enc(e1)), "encoded_by TokenizerTest_json2 (%s) true = Ok %s" % (coq_wide(inp[1]), enc(e2))])
case(t, "TokenizerTest", "Error", [
  "construct no_file (fun _ => None) [] [] = Throw InvalidArgument",
  'construct no_file (fun _ => None) (str "invalid-file-path") [] = Throw RuntimeError',
  'construct no_file (fun _ => Some (JObj [])) [] (str "{}") = Throw RuntimeError'])

pattern = re.search(r'\(\?i:.*?\\\\s\+(?=\\"\},)', re.sub(r'"\s*\n\s*"', '', open(os.path.join(repo, "tests/pre_tokenizer.cpp")).read())).group(0)
pattern = pattern.replace("\\\\", "\\")           # C++ escapes
pattern = pattern.replace("\\\\", "\\")           # JSON escapes
head = '''(** The project's own unit tests (tests/*.cpp), run on the model: every TEST of the repository with the documents, inputs and
    expected values written there. Generated by scripts/repo_tests.py. These are examples, not proofs of properties: they check
    that the model agrees with what the authors observed of the code. *)
From Verif Require Import Base Unicode Common Utils PostProcessor Decoder Normalizer PreTokenizer WordPiece Bpe AddedVocab Tokenizer Config Env.
From Coq Require QArith_base.
Import ListNotations.

(** The answers of ICU and the C library on the strings of the tests, computed with Python's unicodedata. *)
Definition tests_norm (f : nform) (s : wstr) : option wstr :=
%s
  else Some s.
Definition split_pattern : bytes := %s.
Definition tests_matches (p : bytes) (u : ustr) : option (list (nat * nat)) :=
  if negb (leqb p split_pattern) then None
%s
  else Some [].
Definition tests_env : env := {|
  e_norm := tests_norm; e_is_mn := fun c => existsb (N.eqb c) [%s]%%N;
  e_iswspace := e_iswspace test_env; e_iswcntrl := e_iswcntrl test_env;
  e_towlower := fun c => match nfind c [%s]%%N with Some d => d | None => c end;
  e_u_space := e_u_space test_env; e_u_punct := e_u_punct test_env; e_icu_matches := tests_matches;
  e_wregex_ok := e_wregex_ok test_env; e_wregex_next := e_wregex_next test_env; e_inplace := true; e_char_signed := true;
  e_draw := e_draw test_env; e_pq := list_pq |}.

(** The helper functions of the tests: read a component from a document and run it. *)
Definition with_some {A B} (o : option A) (f : A -> res B) : res B := match o with Some x => f x | None => Undef NullDeref end.
Definition normalized_by (j : json) (input : res wstr) : res wstr :=
  n <- with_normalizer (S (json_depth j)) j ;; s <- input ;; with_some n (fun n => r <- normalize tests_env n (new_nstring s) ;; Ok (ns_text r)).
Definition cut_by (j : json) (s : wstr) : res (list (bytes * (nat * nat))) :=
  t <- with_pre_tokenizer (S (json_depth j)) j ;; p <- new_pretok (new_nstring s) ;;
  with_some t (fun t => r <- pre_tokenize tests_env t p ;; Ok (map (fun x => (sp_text x, sp_off x)) (pt_splits r))).
Definition tokens_by (j : json) (s : wstr) : res (list token) :=
  m <- with_model j ;; p <- new_pretok (new_nstring s) ;;
  with_some m (fun m => r <- snd (model_tokenize tests_env m p) ;; Ok (sp_tokens (nth 0 (pt_splits r) (mkSplit [] (0, 0) [])))).
Definition decoded_by (j : json) (l : list bytes) : res (list bytes) :=
  d <- with_decoder (S (json_depth j)) j ;; with_some d (fun d => decode_chain d l).
Definition processed_by (j : json) (e : encoding) (add : bool) : res encoding :=
  p <- with_post_processor (S (json_depth j)) j ;; with_some p (fun p => process p e add).
Definition truncated_by (j : json) (e : encoding) : res encoding := o <- get_object j ;; t <- with_truncation o ;; truncate_encoding 10 t e.
Definition padded_by (j : json) (e : encoding) : res encoding := o <- get_object j ;; p <- with_padding o ;; pad_encoding p e.
Definition extracted_by (j : json) (vocab : smap Z) (s : wstr) : res (list (bytes * (nat * nat))) :=
  l <- get_array j ;; a <- with_added_vocabulary l ;; '(a, _) <- av_add_tokens true a (Some vocab) (av_added a) ;;
  '(_, p) <- extract_and_normalize tests_env a None s ;; Ok (map (fun x => (sp_text x, sp_off x)) (pt_splits p)).
Definition encoded_by (j : json) (s : wstr) (add : bool) : res encoding :=
  t <- construct (fun _ => None) (fun _ => Some j) [] (str "{}") ;; snd (encode tests_env 10 t s add).
Definition no_file (path : bytes) : option bytes := None.
''' % (
  "\n".join("  %sif match f with %s => true | _ => false end && leqb s %s then Some %s" % ("" if i == 0 else "else ", f, coq_wide(a), coq_wide(b)) for i, (f, a, b) in enumerate(norms)),
  coq_str(pattern),
  "\n".join("  else if leqb u (from_utf32 %s) then Some [%s]" % (coq_wide(s), "; ".join("(%d, %d)" % p for p in split_regex(s))) for s in dict.fromkeys(regs)),
  "; ".join(map(str, sorted(marks))),
  "; ".join("(%d, %d)" % p for p in sorted(lowers.items())))
dst = os.path.join(os.path.dirname(os.path.dirname(os.path.abspath(__file__))), "rocq/theories/RepoTests.v")
open(dst, "w").write(head + "\n" + "\n".join(out))
