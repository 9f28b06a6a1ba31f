# A Rocq (Coq 8.16.1) model of rust-atelier

Status of each property: see `MANIFEST.json`. English statements: `properties.jsonl`.

## 1. Method

* `rocq/theories/Model/*.v` – executable Gallina functions transcribing the Rust functions one by
  one. Every definition cites the Rust file and lines it models and says where it simplifies.
  `&mut self` becomes "returns the new value"; `Result` is data; a panic (`unwrap` on `None`,
  `assert!`, `panic!`) is the explicit constructor `Panic`.
* `rocq/theories/Spec/*.v` – small, independent specifications (grammars as inductive predicates,
  reference maps, declarative characterisations of validators, ...). They mention data types of the
  model, not its algorithms.
* `rocq/theories/Proofs/*.v` – lemmas.
* `rocq/theories/Props/*.v` – nothing but the property theorems (`Theorem C.._.. : statement.
  Proof. exact lemma. Qed.`), `Print Assumptions`, and non-vacuity `Example`s.
* Where the unchanged code violates the property, the negation is proved as `…_refuted` with a
  concrete witness, and the strongest true variant is proved next to it (`…_partial` when it is
  weaker than the English claim).

## 2. Representation decisions

* **Strings** are lists of bytes (`list ascii`); Rust strings are UTF-8 and every function modelled
  treats non-ASCII bytes opaquely, except `to_lowercase`, which is modelled for ASCII only. Ids made
  by `from_str` are ASCII, so only ids made by `new_unchecked` from non-ASCII text are outside.
* **f64** is its 64-bit pattern (`Z`), with IEEE equality (`NaN <> NaN`, `+0 = -0`) defined on the
  pattern; printing and parsing of floats is an oracle (a function parameter).
* **i64/u64/usize** are `Z`; the one place where the code wraps (`as i64`) is modelled with the wrap.
* **HashMap / HashSet** are association lists whose order *is* the iteration order; statements about
  "whatever the iteration order" quantify over permutations. Two keys match when their hashes
  agree *and* they are `==`; the hash is an arbitrary function of the data the type feeds to
  `Hasher` (a `Hasher` record every definition takes as a parameter), so theorems hold for every
  hash function and every seed. Simplification: hashbrown compares only 7 hash bits plus the probe
  sequence; we say "equal hash". Keys of type `String` match on equality alone.
* **Regular expressions** are an AST with a derivative matcher (proved equal to the usual
  denotational semantics); capture groups are computed by splitting greedily.
* **PEG grammars** (`selector.pest`, `smithy.pest`) are data interpreted by a generic PEG
  interpreter with pest's implicit whitespace and atomic rules; fuel is only a termination device
  (results are monotone in fuel, and theorems never conclude anything from lack of fuel).
* Logging, `println!`, `Debug` output, error chains/back-traces and error message text are not modelled
  (errors are represented by their `ErrorKind`).

## 3. Plan per property

| id | modelled | how proved |
|----|----------|------------|
| C01–C03 | the three regexes, from_str/is_valid/Display/split | regex denotation ⇔ ABNF spec, list induction |
| C04–C06 | PartialEq, derived Ord, derived Hash input | lower-casing lemmas; refutation witnesses `Foo`/`foo` |
| C07 | id constructors | case analysis |
| C08–C09, C11–C16 | Model::{add_shape, add_metadata, merge, remove_*}, ShapeKind::equal_without_traits, queries | invariant by induction over operation lists; association-list lemmas; witnesses |
| C10 | HasTraits, merge_traits | case analysis, map lemmas |
| C17–C19 | validators | declarative spec `ill_kinded`, set equality of issues |
| C20 | action runners with actions as oracles `model -> result (list issue)` | induction over the action list; witness |
| C21–C22 | linters, with heck's case conversion as oracle | declarative spec |
| C23–C24 | line writer, merge sort | Permutation invariance of sort; lines read as tagged facts, so equal line sets give equal models (exact equivalence); `str` Debug injectivity is a hypothesis on the oracle |
| C25–C27 | JSON reader/writer at the level of `serde_json::Value` | structural induction; witnesses |
| C28–C30 | ModelBuilder | case analysis; induction; witnesses |
| C31 | walk_model with visitor as state-transformer oracle | induction over the shape list |
| C32 | FromStr/Display pairs | exhaustive case analysis lifted to all strings |
| C33 | Selector Display, selector.pest, parse tree conversion | relational PEG semantics, mutual induction; exact read-back criterion |
| C34 | urn.rs (IRI = scheme + path) | reuse of C03 |
| C35 | model_to_rdf as triple list with blank-node supply | witnesses + membership lemmas |
| C36 | query | filter lemmas; witnesses |
| C37–C38 | FileTypeRegistry, ModelAssembler (file system as oracle) | induction over histories; witnesses |
| C39 | smithy.pest run by the PEG interpreter, parser/smithy.rs | termination of every rule; witnesses by computation for the deviations; free-layout theorem for the node-value part |
| C40 | writer.rs followed by the reader | mutual induction over values, shape-by-shape reading lemmas, document round trip for the printable fragment |
| C41 | the JSON reader with panics as outcomes | structural induction over the document; both exceptions are witnesses |
| C42 | ModelBuilder::apply_to, member traits | map lemmas, induction over the trait list |
| C43 | fluent shape builders (builder/shapes.rs) | a call history is a list; "last call wins" proved by induction over it |
| C44 | prelude trait constructors (builder/traits.rs) | case analysis lifted to all argument strings |
| C45 | the mutators of service.rs and aggregate.rs and the member macros | each field is a fold over its own events; folds equal the backward-looking specification by induction |
| C46 | builder/selector.rs and the constructors of selector/mod.rs | induction over calls against the text of each call; C33 for reading back |
| C47 | builder/values.rs | induction over calls; C25 for JSON |
| C48 | atelier-describe/src/graphml/writer.rs over model/visitor.rs | the visitor's state is counter and text; compositional predicate `draws`; text spells an XML tree of a separate XML specification |
| C49 | atelier-describe/src/plant_uml/writer.rs | functions give the lines they write; a separate line reader of PlantUML (`Spec/UmlSpec.v`); compositional predicate `chunk` (the reader's result on a block of lines, whatever follows) |
| C50 | atelier-describe/src/document/writer.rs: `describe_model` and everything under it (the somedoc document as data; its rendering to markdown etc. is not modelled; `Label::safe_from` and Display for f64 are parameters) | a reader of the outline (`Spec/DocumentSpec.v`), relational specification of trait tables, compositional predicate `says`; determinism by uniqueness of strictly sorted permutations |
| C51 | cargo-atelier: `main`, `lint_file`, `validate_file`, `convert_file_format`, `document_file`, `write_model`, `report_action_issues`, `FileFormat`, `check_command_line` (`Model/Cli.v`), on top of the assembler, actions and writers | a reader of printed reports (`Spec/CliSpec.v`); round trips by C26 and C40 through the registry; validation by C18/C19 |
| C52 | atelier-rdf reader.rs: `rdf_to_model`, `rdf_model_subject`, `rdf_literal_string`, `rdf_to_shape` (`Model/RdfReader.v`), on the graphs of `Model/Rdf.v` | sets of terms have one element iff all statements agree; outcome as a total, deterministic relation on what the graph states; for the writer's graphs: descriptions hold no other `rdf:type smithy:Model`, then C35 |
| C53 | atelier-core io/mod.rs: the four functions that read from and write to strings and files (`Model/Io.v`); a writer is a finite sequence of pieces, a file an element of the tree of `Model/Assembler.v` | induction over the pieces for each kind of sink; UTF-8: the decision procedure of `from_utf8` against encodings of Unicode scalar values |
| C54 | model/selector/mod.rs: derived equality, member macros, constructors, conversions, accessors (`Model/SelectorApi.v`) | equality: nested induction over expressions against an inductive relation; histories: as C45, with lists of any type and any decided equality |
| C55 | HasTraits and has_traits_impl! (shapes/mod.rs) (`Model/Queries.v`) | relation "the history leaves this value" (`Spec/QueriesSpec.v`), total and deterministic; induction over calls |
| C56 | is_as macros, conversions, TopLevelShape's constructors, setters and member lookup (`Model/Queries.v`) | case analysis over kinds; lookups against "a member of that name" through hash map facts |
| C57 | builder/id.rs `ShapeName` | C01/C02 on ids and identifiers; no identifier contains `#` |
| C58 | action/mod.rs `ActionIssue`, `IssueLevel`; error.rs `Display` (`Model/Errors.v`) | injectivity: texts begin with different literals, then cancellation at separators |
| C59 | derived `PartialOrd for Number` (values.rs) | floats as bit patterns mapped to integer multiples of 2^-1074 |
| C60 | as C25-C27 (`Model/Json.v`) | written entries form a permutation with distinct keys, sorted maps with the same entries are equal; `reorder_model` is an equivalence; whatever the reader returns is writable and its own image |
| C61 | as C39-C40 (`Model/SmithyParse.v`, `Model/SmithyWrite.v`) and C25-C27 | writability only depends on the imports and own ids of a model and is kept by reordering, by `shape_back` and by the JSON image; `shape_back` is idempotent and forgets what JSON does not keep; then C40 twice |
| C62 | as C17-C22, C36 | `reorder_model` relates look-ups (`reordered_get`), so each per-shape report is a permutation; flat_map over reordered lists; for unwelcome terms the set of first mentions is characterised up to order |
| C63 | as C09-C14, C25-C27 | a general `merge_mergeable` (same ids, reordered traits, equal structure => nothing changes), C12's exact success condition, and the JSON image of C26 |
| C64 | as C35, C48, C49 | the specifications (drawing, diagram, description) of reordered models are permutations of each other, by induction over the maps; the writers refine them by C35, C48, C49. RDF: a permutation of blocks of statements induces a bijection of their blank nodes (RdfIso) |
| C65 | derived `PartialEq` of `Value`, shapes, members, `Model` (values.rs, shapes/*.rs, model/mod.rs) | `hm_eqb` characterised by look-ups, induction on values, own induction principle for `same_value`; reflexivity iff NaN-free (Props/P31_Equality.v) |
| C66 | `parse_model` and the whole pest grammar (parser/smithy.rs, smithy.pest) on document trees (Spec/IdlSpec.v) | structural induction on trees: the text of each node is recognised with any follow text, and converted (IdlValueFacts, IdlShapeFacts, IdlDocFacts); other layouts by C39 (Props/P32_Idl.v) |
| C67 | the same, with `ModelBuilder::try_into` | C66 composed with C29/C30; every name resolves because names are apart (IdlBuildFacts, Props/P32_Idl.v) |
| C68 | the IDL parser on documents with arbitrary members, fields and `apply` | recognition of the raw trees, then: each conversion succeeds iff the fields mean something (induction over the object), panics only at bad names or a missing version (IdlFaultFacts, Props/P33_IdlFaults.v) |
| C69 | `SmithyGrammar.v`, `Peg.v` against the languages of `Spec/IdlLanguageSpec.v` | every successful match of a rule takes a text of the rule's language (`Proofs/IdlSound.v`: one lemma per rule, strong induction on the length of the input for values); with totality of the grammar, other texts are refused; bracket counting by induction on the language (`Proofs/IdlBrackets.v`) |
| C70 | `SelectorParse.v`, `SelectorGrammar.v` against `Spec/SelectorTextSpec.v` (tokens, and layout with the two places where a blank is needed) | completeness by induction on what a text says, each rule accepting its tokens in any layout (`Proofs/SelectorLayout.v`); soundness by inverting matches, each rule's match being tokens in a layout, with induction on the length for nested selectors (`Proofs/SelectorTextSound.v`) |
| C71 | `Model/JsonText.v`: `JsonReader::read` and `JsonWriter::write` with the text reader and printers of serde_json, against the grammar of RFC 8259 (`Spec/JsonTextSpec.v`) | mutual induction over what a text says (completeness) and over depth and length (soundness); printing by induction on depth; for models, printability of every field of the JSON AST, then C26 |
| C72 | the readers and the builder of C26, C33, C19, C71; `Spec/ReaderSpec.v` says what is well formed | invariants: values by induction on documents and parse trees, the shape table over the history of its insertions, the builder over its calls; the assembler and the tool then need no hypothesis on the readers |
| C73 | readers, writers, registry, assembler and merging as before (C26, C33, C38, C40, C71, C72); `Spec/ProjectSpec.v` says what the parts of a model are and what a file holds | every file is read as a reordering of its part; what is looked up in the parts together is one entry of the model and mentions; so no two parts conflict, and the combination (C38) equals the model by the lookups of C65 |
| C74 | `Model/CommandLine.v`: `parse` and `make_search_path` of command_line.rs on parsed arguments, on top of C51 | case analysis of the sub-commands; membership in the pushed set of paths; C72 for what is made of the files |
| C75 | the command line tool of C51 with the readers and writers of C61 and C71 | induction over the runs: what is read is the model reordered; the writers then write the same JSON (C60), or an IDL text that is read as a reordering (C61); a successor of every state is exhibited |

Not modelled: the parsing of command line arguments (structopt), somedoc's rendering of the documentation, `atelier-openapi` (empty), file system access (a tree), logging.

## 4. Trusted base

* Coq 8.16.1's kernel (and `vm_compute`, used for closed computations in witnesses).
* `Print Assumptions` under every property theorem says "Closed under the global context". No axiom, own or
  library, is used. (`coqchk`/vcheck also list seven `Coq.ssr.ssrunder` constants: those belong to a
  standard-library module that is loaded, no theorem depends on them.)
* The faithfulness of the transcription in `Model/`, and of the oracles/simplifications of section 2, in
  particular:
  * `heck`'s case conversion, `f64` Display/parse, `str`'s Debug form, the hash function: parameters; every
    hypothesis on them appears in the theorem statement;
  * `rdftk_iri`: RFC 3986 splitting; `rdftk` graph: a list of statements with a supply of fresh blank nodes;
  * `serde_json`: its documented text behaviour (`Model/JsonText.v`), with the reading and printing of floats as
    parameters;
  * `pest`: its published semantics (ordered choice, implicit whitespace, atomic rules) in `Model/Peg.v`; the
    grammar optimizer is trusted to preserve it;
  * `to_lowercase`: ASCII only; `usize` is 64 bits wide.

## 5. Checks of the transcription against the repository's own tests

The library cannot be built here, so the transcription is tested the other way round: the repository's test cases are
run through the model and give the results the repository states. These are tests of `Model/`, not proofs.

| file of `rocq/theories/Tests/` | test cases |
|---|---|
| `IdlFixtures.v` | atelier-smithy/tests/good and the texts of smithy_success_tests.rs, smithy_simple_parse_tests.rs: IDL text to the expected lines |
| `JsonFixtures.v` | atelier-json/tests: JSON text to the expected lines, and back for json_model_to_ast.rs |
| `SelectorFixtures.v` | atelier-smithy/tests/selector_tests.rs: selector text to the expected selector |
| `AssemblerFixtures.v` | atelier-assembler/tests/resolver_cases: a directory tree to the expected lines |
| `CoreFixtures.v` | atelier-core/tests (identities, resolver, line writer with the message of the day and weather models, validators, linters, merging, visitor), urn.rs |
| `DocumentFixtures.v` | atelier-describe/tests: models to the expected Markdown |

The first four are written by `tools/gen_fixtures.py` from /repo.
