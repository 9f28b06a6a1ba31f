#!/usr/bin/env python3
"""Writes rocq/theories/Tests/*.v: the test cases of /repo run through the model (they are tests of the
transcription, not proofs).  Needs /repo; the generated files are committed."""
import re, os
R = "/repo/"
OUT = os.path.join(os.path.dirname(__file__), "..", "rocq", "theories", "Tests")

def unescape(s):
    s = re.sub(r'\\\n\s*', '', s)
    return re.sub(r'\\(.)', lambda m: {'n': '\n', 't': '\t', 'r': '\r', '0': '\0'}.get(m.group(1), m.group(1)), s, flags=re.S)
LIT = r'r(#+)"(.*?)"\1|r"([^"]*)"|"((?:[^"\\]|\\.)*)"'
def value(m):
    raw = m.group(2) if m.group(2) is not None else m.group(3)
    return raw if raw is not None else unescape(m.group(4))
def strings(text):
    return [value(m) for m in re.finditer(LIT, text, re.S)]
def coq(s):
    b = s.encode()
    if all(32 <= c < 127 for c in b):
        return '(lit "' + s.replace('"', '""') + '")'
    if all(32 <= c < 127 or c == 10 for c in b):
        return "(text [" + ";\n    ".join('"' + l.replace('"', '""') + '"' for l in s.split("\n")) + "]%string)"
    return "(bytes [" + "; ".join(map(str, b)) + "]%N)"
def lines_of(path):
    return [l.replace("\\n", "\n").replace("\\t", "\t").replace('\\"', '"') for l in open(R + path).read().split("\n")]
def nocomments(t):
    return "\n".join(l for l in t.split("\n") if not l.strip().startswith("//"))
def head(doc, mods):
    return f"""(** {doc}
    Written by tools/gen_fixtures.py. *)
From Verif.Model Require Import {mods}.
From Verif.Spec Require Import Witness.
Definition bytes (l : list N) : str := map ascii_of_N l.
Definition text (l : list string) : str := join [ascii_of_N 10] (map lit l).
"""

parts_rs = open(R + "atelier-test/src/parts.rs").read()
CONSTS = {m.group(1): strings(m.group(2)) for m in re.finditer(r'const (\w+): &\[&str\] = &\[(.*?)\];', parts_rs, re.S)}
PARTS = {m.group(1): CONSTS[m.group(2)] for m in re.finditer(r'pub fn (\w+)\(\) -> TestCaseModel \{.*?expected_lines: (\w+)\.to_vec', parts_rs, re.S)}

# ---------------------------------------------------------------- Smithy IDL
def idl_file():
    cases = []
    for n in ["motd", "smithy-api-mqtt", "waiters", "weather"]:
        d = "atelier-smithy/tests/good/" + n
        cases.append((n.replace("-", "_"), d + ".smithy", open(R + d + ".smithy").read(), lines_of(d + ".lines")))
    src = open(R + "atelier-smithy/tests/smithy_simple_parse_tests.rs").read()
    for m in re.finditer(r'fn (\w+)\(\) \{\s*model_test\(\s*(' + LIT.replace('\\1', '\\3') + r'),\s*model_part::(\w+)', src, re.S):
        name = m.group(1)
        text = strings(m.group(2))[0]
        cases.append((name, "atelier-smithy/tests/smithy_simple_parse_tests.rs: " + name, text, PARTS[m.group(m.lastindex)]))
    o = head("The Smithy IDL files and texts that the tests of atelier-smithy read, with the lines they expect of the model read.",
             "SmithyParse SmithyGrammar Peg SelectorParse Lines")
    o += """
(** As [parse_model], with less fuel (the result does not depend on it). *)
Definition read_text (s : str) : result model :=
  match run smithy_grammar (12 * 1000) false (PCall I_idl) s with
  | Some (Some (pairs, _)) => x <- next pairs ;; @parse_idl (fun _ => 0%Z) zero_hasher (fst x)
  | _ => Panic
  end.
(** Keys as Rust's Debug shows them, as far as they occur here. *)
Definition shown (s : str) : str := dquote :: flat_map (fun c => if Ascii.eqb c dquote then [ascii_of_N 92; c] else [c]) s ++ [dquote].
Definition lines_read (s : str) : result (list str) :=
  m <- read_text s ;; Ok (make_line_oriented_form (fun _ => []) shown m).
"""
    for n, what, text, lines in cases:
        o += f"\n(** {what} *)\nExample {n} :\n  lines_read {coq(text)}\n  = Ok [" + ";\n        ".join(coq(l) for l in lines) + "].\nProof. vm_compute. reflexivity. Qed.\n"
    open(OUT + "/IdlFixtures.v", "w").write(o)
    print("idl", len(cases))

# ---------------------------------------------------------------- JSON
def json_file():
    same, reads = [], []
    for f in ["json_model_to_ast", "json_regression_tests"]:
        src = open(R + f"atelier-json/tests/{f}.rs").read()
        for m in re.finditer(r'fn (\w+)\(\) \{\s*parse_and_write_json\(\s*(' + LIT.replace('\\1', '\\3') + ')', src, re.S):
            same.append((m.group(1), f"atelier-json/tests/{f}.rs: {m.group(1)}", strings(m.group(2))[0]))
    src = nocomments(open(R + "atelier-json/tests/json_simple_parse_tests.rs").read())
    for m in re.finditer(r'fn (\w+)\(\) \{\s*model_test\(\s*(' + LIT.replace('\\1', '\\3') + r'),\s*model_part::(\w+)', src, re.S):
        reads.append((m.group(1), "atelier-json/tests/json_simple_parse_tests.rs: " + m.group(1), strings(m.group(2))[0], PARTS[m.group(m.lastindex)]))
    good = sorted(x for x in os.listdir(R + "atelier-json/tests/good") if x.endswith(".json"))
    o = head("The JSON texts that the tests of atelier-json read, with what they expect.", "Json JsonText Lines")
    o += """
Definition shown (s : str) : str := dquote :: flat_map (fun c => if Ascii.eqb c dquote then [ascii_of_N 92; c] else [c]) s ++ [dquote].
Definition read (s : str) : result model := @read_json_model (fun _ => Some 0%Z) zero_hasher s.
Definition lines_read (s : str) : result (list str) := m <- read s ;; Ok (make_line_oriented_form (fun _ => []) shown m).
(** The text of the JSON written for the model read, and of the JSON read. *)
Definition back (s : str) : option (str * str) :=
  match read s, json_from_text (fun _ => Some 0%Z) s with
  | Ok m, Some j => match model_to_json m with Ok j' => Some (compact (fun _ => []) j', compact (fun _ => []) j) | _ => None end
  | _, _ => None
  end.
"""
    for n, what, text, lines in reads:
        o += f"\n(** {what} *)\nExample {n} :\n  lines_read {coq(text)}\n  = Ok [" + ";\n        ".join(coq(l) for l in lines) + "].\nProof. vm_compute. reflexivity. Qed.\n"
    for n, what, text in same:
        o += f"\n(** {what} *)\nExample {n} : match back {coq(text)} with Some (a, b) => a = b | None => False end.\nProof. vm_compute. reflexivity. Qed.\n"
    for f in good:
        o += f"\n(** atelier-json/tests/good/{f} is read. *)\nExample {f.replace('.', '_')} : is_ok (read {coq(open(R + 'atelier-json/tests/good/' + f).read())}) = true.\nProof. vm_compute. reflexivity. Qed.\n"
    open(OUT + "/JsonFixtures.v", "w").write(o)
    print("json", len(same), len(reads), len(good))

# ---------------------------------------------------------------- selectors
def selector_file():
    src = open(R + "atelier-smithy/tests/selector_tests.rs").read()
    src = src[src.index("#[test]"):]
    good = [strings(m.group(1))[0] for m in re.finditer(r'selector_eq\(\s*(' + LIT.replace('\\1', '\\2') + ')', src, re.S)]
    bad = [strings(m.group(1))[0] for m in re.finditer(r'selector_fail\(\s*(' + LIT.replace('\\1', '\\2') + ')', src, re.S)]
    o = head("The selectors of atelier-smithy/tests/selector_tests.rs: which are read, and that what is read is written as text that is\n    read as the same.",
             "Selector SelectorGrammar SelectorParse Peg")
    o += """
(** As [parse_selector], with less fuel. *)
Definition read (s : str) : result selector :=
  match run selector_grammar 3000 false (PCall S_input) s with
  | Some (Some (pairs, _)) =>
      x <- next pairs ;; y <- next (p_inner (fst x)) ;; parse_a_selector (fun _ => 0%Z) (fst y)
  | Some None => Err (EDeserialization (lit "pest"))
  | None => Panic
  end.
"""
    o += "Definition accepted : list str := [\n  " + ";\n  ".join(map(coq, good)) + "].\n"
    o += "Definition refused : list str := [\n  " + ";\n  ".join(map(coq, bad)) + "].\n"
    o += """Example all_accepted : map (fun s => is_ok (read s)) accepted = map (fun _ => true) accepted.
Proof. vm_compute. reflexivity. Qed.
Example all_refused : map (fun s => is_ok (read s)) refused = map (fun _ => false) refused.
Proof. vm_compute. reflexivity. Qed.
"""
    open(OUT + "/SelectorFixtures.v", "w").write(o)
    print("selectors", len(good), len(bad))
# ---------------------------------------------------------------- assembler
def assembler_file():
    d = "atelier-assembler/tests/resolver_cases"
    o = head("The directory of atelier-assembler/tests/assemble_resolver_cases.rs, with the lines expected of the model assembled from it.",
             "SmithyParse SmithyGrammar Peg SelectorParse Lines Assembler")
    o += """
Definition read_text (s : str) : result model :=
  match run smithy_grammar (12 * 1000) false (PCall I_idl) s with
  | Some (Some (pairs, _)) => x <- next pairs ;; @parse_idl (fun _ => 0%Z) zero_hasher (fst x)
  | _ => Panic
  end.
Definition shown (s : str) : str := dquote :: flat_map (fun c => if Ascii.eqb c dquote then [ascii_of_N 92; c] else [c]) s ++ [dquote].
Definition json_unused (s : str) : result model := Panic.
Definition assembled (root : node) (paths : list path) : result (list str) :=
  m <- @assemble zero_hasher (reg_default json_unused read_text) root paths ;; Ok (make_line_oriented_form (fun _ => []) shown m).
"""
    fs = sorted(x for x in os.listdir(R + d))
    o += "Definition resolver_cases : node :=\n  NDir [" + ";\n        ".join(f"(lit \"{f}\", NFile {coq(open(R + d + '/' + f).read())})" for f in fs if f.endswith(".smithy")) + "].\n"
    o += "Example shape_name_resolution :\n  assembled (NDir [(lit \"resolver_cases\", resolver_cases)]) [[lit \"resolver_cases\"]]\n  = Ok [" + ";\n        ".join(coq(l) for l in lines_of(d + "/animals.lines")) + "].\nProof. vm_compute. reflexivity. Qed.\n"
    open(OUT + "/AssemblerFixtures.v", "w").write(o)
idl_file(); assembler_file(); json_file(); selector_file()
