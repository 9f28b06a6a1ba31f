#!/usr/bin/env python3
"""Writes ../properties.jsonl (kept as a script so that the list stays easy to edit)."""
import json, os
P = []
def p(id, title, statement, quantifier, why, anchors):
    P.append(dict(id=id, title=title, statement=statement, quantifier=quantifier,
                  why_tests_cant=why, anchors=anchors))
ID = "atelier-core/src/model/identity.rs"
MD = "atelier-core/src/model/mod.rs"
SH = "atelier-core/src/model/shapes/mod.rs"
AG = "atelier-core/src/model/shapes/aggregate.rs"
SV = "atelier-core/src/model/shapes/service.rs"
VA = "atelier-core/src/model/values.rs"
VI = "atelier-core/src/model/visitor.rs"
AV = "atelier-core/src/action/validate/mod.rs"
AL = "atelier-core/src/action/lint/mod.rs"
LN = "atelier-core/src/io/lines.rs"
BM = "atelier-core/src/builder/mod.rs"
JR = "atelier-json/src/reader.rs"
JW = "atelier-json/src/writer.rs"
SM = "atelier-core/src/model/selector/mod.rs"
SP = "atelier-smithy/src/parser/selector.rs"
SG = "atelier-smithy/src/selector.pest"
IP = "atelier-smithy/src/parser/smithy.rs"
IG = "atelier-smithy/src/smithy.pest"
IW = "atelier-smithy/src/writer.rs"
AS = "atelier-assembler/src/lib.rs"
p("C01","Identifier grammar","Identifier::from_str succeeds on a string exactly when the string is zero or more '_' followed by an ASCII letter followed by letters, digits and '_'; the parsed value displays as that very string, and Identifier::is_valid agrees with from_str.","every string (any length, any characters)","The domain is infinite and the implementation is a regular expression; tests sample a handful of accepted and rejected strings.",[ID+": Identifier::from_str, is_valid, RE_IDENTIFIER"])
p("C02","Namespace grammar","NamespaceID::from_str succeeds exactly on non-empty '.'-separated lists of valid identifiers, split() returns exactly those identifiers, and joining them with '.' gives the namespace back.","every string","Infinite domain; the empty string, leading/trailing dots and doubled dots are the boundary cases tests miss.",[ID+": NamespaceID::from_str, is_valid, split"])
p("C03","ShapeID text round trip","ShapeID::from_str(id.to_string()) returns id for every id made of valid parts; from_str(s)=Ok(id) implies id.to_string()==s and all parts valid; is_valid(s) holds exactly when from_str(s) succeeds; so two ids made of valid parts with the same text are identical.","every shape id with valid components, and every string","Needs all identifiers and all strings; the parser is a capturing regex with optional groups.",[ID+": ShapeID::from_str, Display, is_valid"])
p("C04","Case-insensitive id equality is an equivalence","== on Identifier, NamespaceID and ShapeID is reflexive, symmetric and transitive, holds exactly when the texts agree after ASCII lower-casing (component by component), and lower-casing preserves validity.","all pairs/triples of ids with valid (ASCII) text","Universally quantified over pairs and triples of strings.",[ID+": PartialEq for Identifier, NamespaceID, ShapeID"])
p("C05","Which ids a map finds","An id looked up in a model or map finds exactly what is stored under a key that is == to it and has the same hash; matching of keys is an equivalence and the very same text is always found. So an id that is == but spelled in another case is found only by a hash function that does not tell the spellings apart. (That equal ids always hash equally, as HashMap requires, is refuted: equality ignores case, Hash does not.)","every pair of equal ids, every hash function","Depends on the random hash seed; a test can pass or fail by chance.",[ID+": derive(Hash) with manual PartialEq", MD+": Model::shape"])
p("C06","Ordering of ids","cmp on ids is a total order (antisymmetric, transitive, total): dictionary order of the bytes, by namespace, then shape name, then member, ids without member first; it returns Equal exactly for identical texts. (That it returns Equal whenever the ids are == is refuted: ids that differ only in case.)","all pairs/triples of ids","Universal over triples of strings.",[ID+": derive(PartialOrd, Ord) with manual PartialEq"])
p("C07","Composition and decomposition of ids","shape_only drops exactly the member part and is idempotent; make_member sets exactly the member part; make_shape changes exactly the shape name; id.shape_only().is_valid_member(id) holds for every member id, and is_valid_member(a,b) holds exactly when a has no member, b has one and namespace and shape name are equal.","all ids and identifiers","Algebraic laws over all ids.",[ID+": ShapeID::shape_only, make_shape, make_member, is_member, is_valid_member"])
p("C08","Model key invariant","In any model reachable from Model::new by any sequence of add_shape, merge, add_metadata, remove_shape and remove_metadata (successful or failing), every shape is stored under its own id and found there, no id and no metadata key occurs twice, and every stored shape with a member id is an unresolved reference; ids that are == are not stored twice either, provided equal ids hash equally. (Without that proviso, which the code does not meet, refuted.)","every finite sequence of model operations, every hash function","Quantifies over histories of unbounded length.",[MD+": Model::add_shape, merge, remove_shape, add_metadata"])
p("C09","add_shape: what it stores","add_shape on a fresh id stores exactly that shape; on an existing id it never replaces a resolved body (a conflicting resolved body is an error, an unresolved addition changes only traits), fills in the body when the existing entry is unresolved, and never touches any other entry.","every model, every shape, every hash function","All combinations of resolved/unresolved, bodies and traits.",[MD+": Model::add_shape", SH+": equal_without_traits"])
p("C10","Trait conflict resolution","Applying a trait that is already present concatenates when both values are arrays, keeps the value when the values are equal, and is an error leaving the set of traits unchanged otherwise; a fresh trait is stored as given; other traits never change.","every set of applied traits, trait id and value","All nested values.",[SH+": HasTraits::apply_with_value, merge_traits"])
p("C11","Metadata conflict resolution","add_metadata on a fresh key stores the value; on an existing key it concatenates arrays, keeps equal values and otherwise fails without changing anything; other keys never change.","every model, key and value","All nested values.",[MD+": Model::add_metadata"])
p("C12","merge keeps everything","When merge succeeds, every shape id and metadata key of either model is in the result, nothing else is, every resolved body of either model is the body in the result (up to traits), and shapes only in one model are unchanged.","every pair of models that merge successfully, every iteration order","Quantifies over all pairs of models and all HashMap iteration orders.",[MD+": Model::merge"])
p("C13","What a failing merge leaves","If merge fails, by an error or a panic, nothing is lost from the receiver: all its shapes stay, with their resolved bodies, and all its metadata keys; and every entry is either as it was or has taken over, or is combined with, the entry of the other model as a successful merge would, but for shapes whose traits are merged in part. (That the receiver is unchanged is refuted: entries processed before the conflict stay.)","every pair of models","Depends on HashMap iteration order; tests cannot pin it.",[MD+": Model::merge, add_shape"])
p("C14","Merging is idempotent and order independent","Merging a model without non-empty arrays and NaN among its metadata and trait values with itself leaves it as it is; whether merging two models succeeds does not depend on the order of the operands, and neither does the result, up to the traits of members and the spelling of equal ids and values, unless both give an array for the same metadata key or trait. (Without the exceptions refuted: arrays grow and depend on the order, NaN conflicts with itself, and the member traits of the second operand are dropped.)","every model / pair of models","Universal over models.",[MD+": Model::merge, add_metadata", SH+": merge_traits"])
p("C15","When merging panics","merge panics only if both models define the same id as a structure (or both as a union) with equally many members, and some member name of the first is missing in the second; for such models merge never succeeds. (That merging never panics is refuted.)","every pair of models","A panic needs a specific combination of member sets.",[SH+": ShapeKind::equal_without_traits", MD+": Model::add_shape"])
p("C16","Membership queries","For every container and key: TopLevelShape::has_member, HasTraits::has_trait, has_shapes and has_metadata are true exactly when there is such an entry; has_shape, has_metadata_value, Structure/Union::has_member and Resource::has_identifier are true exactly when there is none. (That the latter four tell the truth is refuted: they are inverted.)","every container and key","Must hold for every container and key.",[MD+": has_shape, has_metadata_value", AG+": StructureOrUnion::has_member", SV+": Resource::has_identifier"])
p("C17","Completeness of a model","is_complete is true exactly when no stored shape is an unresolved reference, exactly when unresolved_shape_names is empty, and exactly when the NoUnresolvedReferences validator reports nothing. shape_names and unresolved_shape_names list every stored shape exactly once between them, and namespaces() lists the namespaces of the resolved shapes, each once.","every model","Universal over models; ties three independent implementations.",[MD+": is_complete, unresolved_shape_names", AV+": NoUnresolvedReferences"])
p("C18","NoUnresolvedReferences is exact","The validator reports exactly one error-level issue for every unresolved shape, whose message names the shape's id, and nothing else, and never fails.","every model, every iteration order","Universal over models.",[AV+": NoUnresolvedReferences::check"])
p("C19","CorrectTypeReferences is exact","The validator's issues are exactly the ill-kinded references of the model: members, identifiers, inputs, outputs, errors, operations, resources whose target in the model is not of the required kind (errors) or is not in the model and not in the prelude namespace (warnings), and simple shapes without traits (infos). Each names the shape, the reference and the target.","every model, every iteration order","Universal over models and all reference positions.",[AV+": CorrectTypeReferences::check, check_type_only, check_operation_only, check_resource_only"])
p("C20","Running actions: order and fail-fast","All actions run in order, each on the issues it already held, and their issues are concatenated; an action that fails aborts the run, the later ones are not called and the failure is returned; the fail-fast flag makes no difference. The standard validation and lint runs report the issues of their two actions in order. (That with fail-fast no action runs after one that reported an error is refuted.)","every list of actions, every model","Universal over action lists.",[AV+": run_validation_actions", AL+": run_linter_actions"])
p("C21","NamingConventions is exact","An info-level issue is reported at an id exactly when some name that the style guide constrains there (shape names UpperCamelCase, trait and member names lowerCamelCase, at definitions, member targets and applied traits) is not in its form, and nothing else is reported, where traits applied to the member of a list, set or map are not considered. The message gives the form the name should have. (That those are considered too is refuted.)","every model","Universal over models.",[AL+": NamingConventions::check"])
p("C22","UnwelcomeTerms is exact","Every warning is about an unwelcome word in a name of the model, at the id the name belongs to; every name except resource identifiers, service renames and names of element traits is checked, itself or in a spelling that differs only in case, and no name is checked twice; so if no two names differ only in case every unwelcome word of such a name is reported. A linter used again on a model reports only names that the models before did not have. (That the excepted names are checked is refuted.)","every model","Universal over models.",[AL+": UnwelcomeTerms::check", "atelier-core/src/action/lint/terms.rs"])
p("C23","Line-oriented form is canonical","make_line_oriented_form returns the same sorted lines for any two models that are equal as maps, whatever order their HashMaps iterate in.","every model and every permutation of each of its maps","HashMap order is random per process; a test cannot enumerate it.",[LN+": make_line_oriented_form, shape_into_strings, value_into_strings"])
p("C24","Line-oriented form distinguishes models","Two models have the same line-oriented form exactly when they differ only in the order of hash maps and of lists of ids (errors, operations, resources), provided ids and names are syntactically valid, values contain no floats, object keys no closing brace and metadata keys no '<', the members of a map are called key and value, and the text Rust prints for a string determines the string. Without these conditions different models can have the same lines, but models with valid names still have the same shapes, of the same kinds, with the same labelled references.","every pair of models","Injectivity is a property of all pairs.",[LN+": make_line_oriented_form"])
p("C25","JSON values round trip","Writing a value whose floats are all finite to JSON and reading it back gives the same value (and a value == to it); reading a JSON value whose integers all fit i64 and writing it back gives the same JSON. Outside these ranges neither holds: an integer above i64::MAX comes back negative and a NaN or infinite float makes the writer panic.","every value / every JSON value of any depth","Structural induction over unbounded values.",[JW+": from_value", JR+": value"])
p("C26","JSON models round trip","Reading the JSON AST written for a model gives back the model, except that the key and value of each map are now members called `member` and that each trait without a value now has the empty object as value; so a model without maps and without valueless traits comes back ==, and neither exception can be dropped.","every well-formed model","Universal over models.",[JW+": model_to_json", JR+": parse_model"])
p("C27","When the JSON writer panics","model_to_json returns a document for every model without NaN and infinite floats in metadata or trait values, and panics for every other model; it never returns an error.","every model","Needs a specific float.",[JW+": from_value"])
p("C28","Builder name resolution","A name in a builder resolves to itself when absolute (an error if it names a member); otherwise to the unique matching `use`; otherwise to the shape defined locally; otherwise to the prelude shape (trait, for trait names); otherwise to the default namespace as an unresolved reference; two matching `use`s are an error.","every builder state, every history of calls and every name","Universal over builder states.",[BM+": ModelBuilder::resolve_shape_name"])
p("C29","The builder builds what was declared","For each declaration with an id of its own, the built model has a shape with that id, the declared traits and members, targets and member traits resolved, and the declared kind, except that a set becomes a list; nothing is in the model but shapes of declared ids and unresolved shapes for names found nowhere, all of which are there; version and metadata are the builder's. (That kinds are always preserved, that a declaration always ends up in its own namespace and that it is always kept are refuted.)","every builder state and every history","Universal over builders.",[BM+": make_list, make_set, make_map, make_structure, ..."])
p("C30","When building succeeds","Building returns an error only because of a name in some declaration that cannot be resolved, and succeeds if all names resolve, lists have a member called `member`, services have a version and no two declarations share an id; it panics only if one of these fails. Conflicting declarations or traits are not reported (refuted by example: the later or the first one is silently dropped).","every builder state","Universal over builders.",[BM+": TryFrom<&mut ModelBuilder> for Model, make_traits, insert"])
p("C31","Visitor coverage","walk_model calls the visitor exactly once for every metadata entry and every shape, each with the callback of its kind, and stops at the first error returned.","every model, visitor and iteration order","Universal over models and visitor behaviours.",[VI+": walk_model"])
p("C32","Textual round trips of enumerations","from_str(x.to_string())==x and from_str(s)=Ok(x) implies x.to_string()==s for Simple, ShapeType, Comparator and ErrorSource; for Version only the first half holds because \"1\" is also accepted.","every value of each type and every string","The second half ranges over all strings.",["atelier-core/src/model/shapes/simple.rs", SM+": ShapeType, Comparator", "atelier-core/src/lib.rs: Version", "atelier-core/src/builder/traits.rs: ErrorSource"])
p("C33","Selector text round trip","parse_selector(selector.to_string()) returns the selector for every selector whose names are selector identifiers, whose lists are not empty and whose values survive being written; conversely everything parse_selector accepts has that form, so what was read once is read again from its own text. parse_selector always terminates and panics only if the text contains a number without a decimal point that is no i64. (That every selector or every parsed selector is read back is refuted: >= and <=, quotes in texts, floats without a fraction, __names, empty texts and lists.)","every selector of any depth, every text","Recursive grammar: functions and variables nest without bound.",[SM+": Display for Selector ...", SP+": parse_selector", SG])
p("C34","URN round trip","iri_to_shape(shape_to_iri(id)) returns id for every valid id, whose URN has the documented form; distinct ids have distinct URNs; iri_to_shape accepts exactly the IRIs with scheme urn and the path of the URN of a valid shape, ignoring authority, query and fragment, and never panics. (That every accepted IRI is the URN of the shape is refuted: a query or fragment is silently dropped.)","every valid shape id and every IRI","Universal over ids and IRIs.",["atelier-rdf/src/urn.rs: shape_to_iri, iri_to_shape, is_shape_iri"])
p("C35","RDF form represents the model","The RDF graph of a model says exactly: the model node has the Smithy version and one membership statement per resolved shape; every resolved shape (under its URN) has exactly its class, members, properties and traits; nothing else has properties but blank nodes. Two models whose graphs are the same up to blank node names have the same resolved shapes up to what the graph drops: order and repetition in arrays and id lists, renames, which member of a map is the key. (That the graph determines the whole model is refuted: metadata, unresolved shapes, renames, array order and repetition are lost.)","every model with valid ids, every model IRI that is not the URN of one of its shapes","Universal over models and pairs of models.",["atelier-rdf/src/writer.rs: model_to_rdf","atelier-rdf/src/urn.rs","atelier-rdf/src/vocabulary.rs"])
p("C36","Selector queries by shape type","query with a selector of shape types (and variables) returns exactly the resolved shapes of the model that satisfy all of them, in model order; each type selects what it documents except that `number` misses byte and long and `collection` includes maps; any other kind of expression panics. (That number and collection are as documented is refuted.)","every model and every selector","Universal over models and selectors.",["atelier-query/src/evaluate.rs: query, query_by_shape_type, match_by_shape_type","atelier-query/src/projection.rs: Projection"])
p("C37","File type registry","After any history of register, register_all and remove, looking up an extension in any letter case finds exactly the file type that the last operation about that extension registered, and nothing if it was removed or never registered; each operation leaves the lookup of other extensions alone; extensions() lists the known ones once, lower-cased, in increasing order; MIME types are known from register only and are never forgotten. (That remove forgets the MIME type and that register_all makes it known are refuted.)","every history of register/remove operations, every extension","Histories of unbounded length.",[AS+": FileTypeRegistry"])
p("C38","Assembler result is independent of file order","The assembler reads exactly the files with a known extension at or below the pushed paths; it succeeds exactly when all of them can be read and no two conflict, and the result combines all of them. Whether it succeeds does not depend on the order of paths or directory listings; nor does the result, unless two files give an array for the same metadata key or trait. (Without that exception order matters, and a file pushed together with its directory is merged twice: both refuted.)","every set of files and every visiting order","HashSet order is random.",[AS+": TryFrom<ModelAssembler> for Model"])
p("C39","Smithy IDL text is understood","Reading an IDL text always ends; the layout of a document (white space, commas, tabs, line ends and comments between its tokens) has no influence on what is read or which error is reported; and every document with the tokens of a printable model is read as that model. (That every syntactically valid document is accepted with its standard meaning is violated: `apply` statements are always rejected, quoted object keys keep their quotes, escapes are not decoded, words beginning like a keyword lose that beginning, text blocks lose leading comments and commas, metadata without a namespace are lost, some documents panic.)","every IDL document; every pair of documents with the same tokens (texts in double quotes, text blocks and documentation comments included)","Universal over documents.",[IP+": parse_idl, parse_shape_statements, parse_node_object_kvp, parse_quoted_text", IG])
p("C40","Smithy IDL round trip","Writing a model as Smithy IDL for a namespace and parsing the text gives a model with the same version, the same metadata but for quotes around the keys, and exactly the imports and the shapes of the namespace, with these changes only: sets become lists, list and map members lose their traits, services lose their renames, traits without a value get the empty object. This holds for every model whose names are written identifiers that mean the same in the document, whose values are texts without escapes, numbers, booleans, arrays and objects, and without applied traits or metadata objects; models that use none of the changed features come back unchanged. (The unrestricted claim is violated; each restriction has a witness.)","every model and namespace","Universal over models.",[IW+": SmithyWriter::write", IP+": parse_model"])
p("C41","The JSON reader does not panic","Reading a JSON document returns a model or an error, never panics, unless a service has the empty string as version or two shape ids of the document differ in letter case only. (The unrestricted claim is violated by both exceptions.)","every JSON document","Universal over documents.",[JR+": JsonReader::model, shape, shapes", "atelier-core/src/model/shapes/service.rs: Service::new"])
p("C42","Applying traits in a builder","A trait applied to a shape reaches that shape in the built model, combined with the declared traits when they are compatible, leaving body and other declarations alone; a trait applied to a member of a shape with an absolute name reaches that member and nothing else, and applying it to a member that does not exist panics; a new reference changes the meaning of bare names spelled like it and of no others. (That applying elsewhere is harmless, that conflicts are reported and that members can be reached are refuted.)","every builder state, shape and trait","Universal over builders.",[BM+": apply, apply_to, apply_to_member, apply_to_shape", BM+": TryFrom<&mut ModelBuilder> for Model"])
FS = "atelier-core/src/builder/shapes.rs"
FT = "atelier-core/src/builder/traits.rs"
p("C43","Fluent shape builders record what is said","After any chain of calls on a service, operation, resource or structure builder the builder holds exactly what the calls said: lists in the order of the calls, the last value of each single-valued setting, the last entry for each key of a map, all traits in order. The chain panics exactly when one of the given texts is not a shape name, an absolute id or an identifier, as the call requires. Lists, sets and maps have members with the fixed names, and setting one member keeps the others.","every name and every sequence of calls","Universal over call sequences of any length.",[FS+": ServiceBuilder, OperationBuilder, ResourceBuilder, StructureBuilder, ListBuilder, MapBuilder, MemberBuilder"])
p("C44","Prelude trait constructors","Each constructor of a prelude trait makes the trait of that name in smithy.api, whatever the builder it is used in imports or declares, with exactly the entries that were given; it panics exactly when neither limit is given (length, range), the text is empty (pattern, since) or the value is no array (references). Limits of 2^63 and more are written as the negative number with the same bits.","every argument","Universal over strings, numbers, lists and builders.",[FT+": boxed .. unstable, TraitBuilder, ErrorSource"])
SV = "atelier-core/src/model/shapes/service.rs"
AG = "atelier-core/src/model/shapes/aggregate.rs"
p("C45","Shape bodies after any history of calls","After any history of calls on a Service, Operation, Resource, structure or union: a list holds, in order, exactly the ids that were added or set and neither replaced nor followed by the removal of an equal id; a single-valued field holds what was last set, nothing if unset since or never set; a map holds the last entry inserted for each key, and inserting and removing return what was there before; adding a shape of the wrong kind changes nothing; other fields are untouched; only an empty service version panics. Members of lists, sets and maps can be replaced by members of the same name only, where names are compared ignoring case. (That the names of these members are fixed is refuted: Map::from accepts any names and set_member other spellings.)","every history of calls, every argument","Histories of unbounded length.",[SV+": Service, Operation, Resource", AG+": ListOrSet, Map, StructureOrUnion", "atelier-core/src/macros.rs: array_member, optional_member, hash_member"])
BS = "atelier-core/src/builder/selector.rs"
p("C46","Selector builders say what was called","The selector made by any sequence of calls on a SelectorBuilder has one expression per call, in order, each reading in the selector language as the method documents, so that the text of the selector is the texts of the calls separated by blanks and, if it can be written, is read back as that selector; converting never panics, only a function without arguments does. An attribute builder has the key it was started with, the path given since the last `path`, and the last comparison; a scoped attribute builder has all assertions in order and panics exactly without assertions or when given a path without a key. (That numbers in assertions stay numbers and that string_starts_with keeps its text are refuted: both become quoted texts.)","every sequence of calls of any length, every argument","Universal over call sequences.",[BS+": SelectorBuilder, AttributeBuilder, ScopedAttributeBuilder", SM+": AttributeComparison, ScopedAttributeAssertion, Function"])
p("C47","Value builders build what was given","An array builder makes the array of the given values in order; an object builder makes the object with exactly one entry per key, the last one given; two sequences of calls make equal objects exactly when they end with equal values for each key, whatever their order; what was built from finite numbers can be written as JSON and read back.","every sequence of calls","Universal over call sequences.",["atelier-core/src/builder/values.rs: ArrayBuilder, ObjectBuilder", JW+": from_value"])
GW = "atelier-describe/src/graphml/writer.rs"
p("C48","GraphML output is the graph of the model","The text written by GraphMLWriter is a well-formed XML document whose tree has exactly one node per resolved shape (with its type, and for services the version), one edge per applied trait and one per member target or service/resource/operation link, in model order, edges numbered from e0 with distinct ids; every edge starts at a node. This holds when ids are valid, service versions are XML character data (they are not escaped) and there are at most 65535 edges; with more, a build with overflow checks panics and one without repeats ids. Edge ends are nodes exactly for models that contain what they refer to.","every model, with and without overflow checks","Needs models of every shape kind, versions with special characters, and more than 65535 edges.",[GW+": GraphMLWriter::write, GraphMLVisitor", VI+": walk_model"])
p("C49","PlantUML diagram","The PlantUML writer returns a text or panics, and panics exactly when a service or resource names an operation that the model does not have or that is no operation there. The text, read line by line as a PlantUML class diagram, consists of (when asked for) the package of the thirteen primitives and then, for each namespace of the resolved shapes, a package that holds for every simple, service, resource, structure and union shape of the model, in model order: one class with its stereotype, its traits (all but error and documentation), its fields and its operations with the types of input and output; a note with a line to it for each documentation trait; an inheritance line to its primitive type or aggregation lines to its resources. The order in which namespaces are visited only permutes these items. (That a class is drawn once and in its own package, that lifecycle operations are told apart and that documentation is only prose are refuted.)","every model whose names are valid, whose trait texts and versions are of one line and whose documentation of simple shapes is prose; the panic clause ranges over all models; every iteration order of the namespaces","Universal over models and HashSet orders.",["atelier-describe/src/plant_uml/writer.rs: PlantUmlWriter"])
p("C50","Documentation of a model","Describing a model gives a document or panics, and panics exactly when a documentation trait of a resolved shape or of one of its members has a value that is not a text. The document names the Smithy version, tabulates the metadata, and then has a chapter for each namespace of resolved shapes and in it one section per shape of that namespace, in the order of the shape ids: its name, kind and label; the documentation texts and external links of the shape and its members; one table per set of traits, with a row per scalar in their values, traits and object entries in order; and, as links or code, everything the shape refers to, each under the heading or label that says what it is for. Unless namespaces differ only in letter case every resolved shape has exactly one section. A link leads to a section of the same chapter whenever its target is a resolved shape. Iterating the model's maps in another order only permutes chapters, members and links. (Readings that fail: full paths in trait tables, resource identifiers, unique labels, unquoted external URLs, no dangling links to unresolved shapes.)","every model whose maps are maps, every iteration order, every labelling function","tests describe one example model in one iteration order",["atelier-describe/src/document/writer.rs: describe_model, describe_model_shapes, describe_shape, describe_traits, trait_value, describe_documentation, shape_link, describe_structure_or_union, describe_service, describe_operation, describe_resource"])
p("C51","The command line tool","`validate` prints a report that can be read back line by line: one error per unresolved shape, then entries about exactly the shapes with a reference of the wrong kind (error), to a shape that is missing (warning) or that are mere synonyms (info); it prints `No issues reported.` exactly when the assembled model has none of these. `lint` prints a report of exactly the linters' issues. Both end with exit code 0 whenever the model can be assembled, with 1 if a file cannot be read or merged. What `convert` prints to standard output as JSON or Smithy IDL, put into a file of that type, is assembled to the model again up to what the format keeps; Smithy IDL requires a namespace unless there is exactly one. (That errors give a failing exit code is refuted, and nothing is ever written to an output file: it is opened for reading.)","every set of input files, search path, model and iteration order","Universal over models and files; unit tests do not run the tool.",["cargo-atelier/src/bin/main.rs: main","cargo-atelier/src/actions.rs: lint_file, validate_file, convert_file_format, document_file, write_model","cargo-atelier/src/report.rs: report_action_issues","cargo-atelier/src/lib.rs: FileFormat","cargo-atelier/src/command_line.rs: check_command_line"])
p("C52","Reading an RDF graph","`rdf_to_model` returns a model exactly if the graph states that the named subject (or, when none is named, exactly one subject) is a smithy Model, has exactly one distinct version object, a literal `1` or `1.0`, and no shape; that model is empty. Otherwise it fails with an error that says whether the model or the version is missing or ambiguous, or which version is unknown - and it panics when the model has a shape (shape reading is unimplemented). So the graph written from a model reads back as a model only if it has no resolved shape. The outcome does not depend on the order of statements or the names of blank nodes.","all graphs, all optional model names, all models for the round trip","The statements of a graph and their order are unbounded; tests only show single graphs.",["atelier-rdf/src/reader.rs: rdf_to_model, rdf_model_subject, rdf_literal_string, rdf_to_shape, RdfReader"])
p("C53","Models in strings and files","`write_model_to_string` returns exactly the pieces the writer puts out, in order, when the writer succeeds, its error when it fails, and panics only if the writer does or the output is not UTF-8 text (never if every piece is text). `read_model_from_file` gives what `read_model_from_string` gives for the content of the file, and an error if there is no such file. `write_model_to_file` changes no file whatsoever, and succeeds only if something exists at the path and the writer puts out nothing (the file is opened for reading only), so the claim that it writes the text is refuted.","all writers, readers, models, paths and file trees; all byte sequences for UTF-8","Universal over writers (any number of pieces, failing at any point), file trees and byte sequences.",["atelier-core/src/io/mod.rs: read_model_from_string, read_model_from_file, write_model_to_string, write_model_to_file"])
p("C54","Selector objects after any history of calls","After any sequence of calls on a key, comparison, attribute selector, selector, scoped selector, assertion, function or variable, each single-valued member holds what was last set (or the constructor's argument), each optional member what was last set or unset, and each list member all that was given and not taken away later, in order. Removal removes everything equal: names are compared without regard to case, floats as floats, everything else exactly; equality is symmetric and transitive and an expression equals itself unless it mentions NaN (which therefore can never be removed). Constructors panic exactly without assertions or arguments; assertions carry the sign of their name and the given values, except that a prefix and numbers become texts (that they are kept is refuted). `as_x` answers exactly what a value was converted from and `is_x` whether it answers.","all objects, all finite sequences of calls, all arguments, at any nesting depth","Universal over histories of calls and over selectors of any depth.",["atelier-core/src/model/selector/mod.rs: Key, AttributeComparison, AttributeSelector, Selector, SelectorExpression, ScopedAttributeSelector, ScopedValue, ScopedAttributeAssertion, NeighborSelector, Function, VariableDefinition, VariableReference","atelier-core/src/macros.rs: required_member, boolean_member, optional_member, array_member, is_only, is_as, is_as_array"])
SH = "atelier-core/src/model/shapes/mod.rs"
p("C55","Trait queries after any history","A shape or member answers `has_trait(id)` with yes exactly when it carries a trait whose id is the same up to letter case; `is_deprecated`, `is_sensitive`, `is_required` and the other predicates answer for the prelude trait of that name. After any history of applying and removing traits (an application that conflicts is refused and changes nothing) an element holds for each trait exactly the value the history leaves: the first application since the last removal, combined with later compatible ones. Appending a set of traits applies them one by one up to the first one refused.","every history of calls, every trait id","Universal over histories.",[SH+": HasTraits, has_traits_impl!"])
p("C56","Shape and value queries","Every shape body is of exactly one kind and every value of exactly one form; `is_x` says yes exactly for values made by the constructor of x and `as_x` gives back exactly what was put in; setters of a shape change the one part they name; looking up a member finds exactly the member with that name (in any letter case). `has_members` answers no exactly for simple and unresolved shapes; so it says yes for services, operations and resources, in which no member can ever be found.","every shape, body and value","Universal over shapes and names.",[SH+": ShapeKind, TopLevelShape", "atelier-core/src/model/values.rs: Value", "atelier-core/src/model/macros.rs"])
p("C57","Names in builders","A text is a shape name exactly when it is an absolute shape id or an identifier; printing gives the text back and parsing gives the name back, so distinct names have distinct texts; any other text is refused with InvalidShapeID of that text. A name is either qualified or local, never equal to one of the other kind, and otherwise equal up to letter case.","every text and every name","Universal over strings.",["atelier-core/src/builder/id.rs: ShapeName"])
p("C58","Texts of issues and errors","Creating an issue panics exactly when the message is empty and otherwise keeps reporter, level, message and place; levels are ordered info < warning < error; the printed text of an issue has its documented layout and determines the issue, when reporters are one word; the printed text of an error determines the kind of error and all it is about, when its parts contain no quote. The issues of the standard linters and validators are never refused.","every issue, every error, every model","Universal over texts.",["atelier-core/src/action/mod.rs: ActionIssue, IssueLevel", "atelier-core/src/error.rs"])
p("C59","Ordering of numbers","Comparing two numbers orders all integers before all floats, integers among each other by value and floats by value, with -0.0 equal to 0.0; exactly the comparisons with a NaN float on one side and a float on the other have no answer. So < is irreflexive and transitive (through numbers that are not NaN), total on numbers that are not NaN, and agrees with ==. (That numbers of different variants are ordered by value is refuted: 2 is before 1.0.)","every pair and triple of numbers","Universal over 64-bit integers and floats.",["atelier-core/src/model/values.rs: Number"])
p("C60","JSON form is canonical and stable","The JSON document of a model does not depend on the iteration order of hash maps; two models have the same document exactly when they differ only in the order of maps and in what JSON does not keep (member names of maps, no value versus the empty object as value of a trait). What was read from such a document is written as the same document again. Any accepted document can be written again, and from then on reading and writing change nothing, neither model nor document, provided no two names in it are taken for the same by a hash map. (That the first writing reproduces the document is refuted: unknown entries are dropped.)","every model, hash order and JSON document","Universal over documents and iteration orders.",[JW+": model_to_json", JR+": JsonReader::model"])
p("C61","Smithy IDL trips are stable and order independent","For a model that can be written in the IDL: the order in which its hash maps are iterated does not change what is read back from the text (up to that order); a model without metadata that was read back is written and read again without any further loss; going through JSON first changes nothing of what is read from the IDL; and a model that only holds what the IDL keeps has the same JSON document after a trip through the IDL. (With metadata the second trip is refuted: keys come back with quotes around them and the text written next cannot be read.)","every writable model, namespace, iteration order and hash function","Universal over models, orders and sequences of trips.",["atelier-smithy/src/writer.rs: SmithyWriter::write", "atelier-smithy/src/parser/smithy.rs: parse_model", JW+": model_to_json"])
p("C62","Reports and queries do not depend on iteration order","If two models differ only in the order their hash maps are iterated in: they are both complete or both not; they have the same shape names, unresolved names and (unless namespaces are mistaken for each other) namespaces; looking up an id finds the same shape; the standard validation reports the same issues, each as often; so do the naming conventions; the unwelcome terms found are the same, each as often, unless names that differ in letter case only hash alike; a selector query answers with the same shapes or ends the same way. (That unwelcome terms are reported at the same places is refuted: a name is only reported where it is met first.)","every pair of models that differ in iteration order, every hash function, every selector","HashMap's order is randomised per process: a test sees one order.",["atelier-core/src/model/mod.rs: Model::shape_names, unresolved_shape_names, namespaces, is_complete, shape","atelier-core/src/action/validate/mod.rs","atelier-core/src/action/lint/mod.rs","atelier-query/src/evaluate.rs: query"])
p("C63","Merging a model with its own round trip","Merging a model with the same model in another iteration order succeeds and changes nothing, if the model has neither non-empty arrays nor NaN among its metadata and trait values. Merging a model with what is read from its own JSON succeeds exactly when every trait applied to a shape has a value and the key and value members of every map are called `member`; then (without arrays) it changes nothing. (That it always succeeds is refuted: maps and traits without value conflict with their own JSON form.)","every model that can be written as JSON, every iteration order and hash function","Universal over models and orders.",["atelier-core/src/model/mod.rs: Model::merge, add_shape, add_metadata", JW+": model_to_json", JR+": JsonReader::model"])
p("C64","Drawings and graphs do not depend on iteration order","Two models that differ only in the order in which their maps are iterated get GraphML documents with the same nodes and edges, PlantUML diagrams with the same items (classes with the same lines, notes and links), and RDF graphs that are the same up to the names of blank nodes; and one writer panics exactly when the other does. For RDF this needs that no resource has two or more identifiers, for PlantUML that no shape has two documentation traits: identifiers and notes are numbered as they come (refuted otherwise for RDF).","every model, every two iteration orders of its maps and of its set of namespaces, every hash function","Universal over models and hash-map iteration orders; each process picks another order.",["atelier-describe/src/graphml/writer.rs: GraphMLWriter::write", "atelier-describe/src/plant_uml/writer.rs: PlantUmlWriter::write", "atelier-rdf/src/writer.rs: model_to_rdf"])
p("C65","Equality compares values, shapes and models by what can be looked up in them",
  "`==` on values, on shapes and on models holds exactly when the two describe the same thing: arrays element by element, objects, traits, members and shapes under the same keys with equal values, identifiers without regard to ASCII case, floats numerically (both zeros are equal). It is symmetric and transitive, and anything equals itself except exactly what contains a NaN somewhere (in a value, in a trait of a shape or of a member, in the metadata). Equal models have the same metadata keys, the same shapes and the same completeness. (That `==` is an equivalence on all models, or depends on the models only and not on the hash function when ids differ in case, is refuted.)",
  "all pairs and triples of values, shapes and models, of any size and nesting, every hash function",
  "equality ranges over unbounded nested maps in every iteration order; symmetry and transitivity quantify over pairs and triples of models",
  ["atelier-core/src/model/values.rs: Value, Number","atelier-core/src/model/shapes/mod.rs: TopLevelShape, ShapeKind","atelier-core/src/model/shapes/aggregate.rs: MemberShape","atelier-core/src/model/shapes/service.rs: Service, Operation, Resource","atelier-core/src/model/mod.rs: Model"])
p("C66","Reading an IDL document makes the builder calls it stands for",
  "For every document tree of the Smithy IDL (control statements, metadata, a namespace with imports and any statements, with documentation comments, traits with arguments of any depth, members and fields in any order), every text with the tokens of that document, in whatever layout, is read as what the model builder builds from the sequence of calls the document stands for: one `uses` per import, one shape per statement in order, one metadata entry each. A document without a namespace section is read as the empty model (its metadata is lost); one that asks for another version than 1 or 1.0 is refused with that version.",
  "every document tree of any size and nesting (text blocks included, no apply statements), every layout of its text, every hash function",
  "documents are unbounded and nested; a test reads a few texts in one layout",
  ["atelier-smithy/src/parser/smithy.rs: parse_model","atelier-smithy/src/smithy.pest","atelier-core/src/builder/mod.rs: ModelBuilder"])
p("C67","The model read from an IDL document is what the document declares",
  "If no two imports or declarations of a document have the same name (ignoring case) and services have a version, the document is read successfully, and: the metadata is that of the document; every statement is the shape of that name in the namespace, with the traits and documentation written above it and a body of the declared kind and content (sets become lists), every name in it resolved by the rules of the language (absolute, imported, declared, prelude, otherwise the namespace itself); every import is a shape without body; the model has no other shapes than these and body-less ones for names found nowhere, and every such name has one.",
  "every document tree without clashing names, every layout of its text, every hash function",
  "universal over documents, references and layouts",
  ["atelier-smithy/src/parser/smithy.rs: parse_model","atelier-core/src/builder/mod.rs: ModelBuilder, resolve_shape_name","atelier-core/src/builder/shapes.rs"])
p("C68","IDL documents with mistakes are refused, never misread",
  "For every IDL document that follows the grammar, whatever members its lists, sets and maps have, whatever fields and values its services, operations and resources have, and with or without apply statements: if every statement means something (one member called member; key and value members only; only known fields, with names and lists of names where they belong) reading it makes exactly the calls of the model builder for those meanings; if some statement means nothing, no model is read; reading panics only if some service has no textual version, some value that should be a name is none, or building the model panics. Every statement has at most one meaning. Of fields with the same name the last one counts.",
  "all IDL document trees over arbitrary members, field objects and apply statements, all layouts of their text, all hash functions, all float conversions",
  "there are unboundedly many documents with mistakes; a test shows that some of them are refused, not that none is accepted with a different meaning",
  ["atelier-smithy/src/parser/smithy.rs: parse_list_statement","atelier-smithy/src/parser/smithy.rs: parse_map_statement","atelier-smithy/src/parser/smithy.rs: parse_service_statement","atelier-smithy/src/parser/smithy.rs: parse_operation_statement","atelier-smithy/src/parser/smithy.rs: parse_resource_statement","atelier-smithy/src/parser/smithy.rs: parse_shape_statements","atelier-core/src/builder/mod.rs: ModelBuilder"])

p("C69", "Only Smithy IDL documents are read",
  "A text that is not a Smithy IDL document is refused with a syntax error: it is never read as some model, and it never makes the reader panic or report a mistake of another kind. Documents are the texts of a context-free grammar: layout, control statements, metadata statements and perhaps a namespace with uses, shapes and applied traits, in this order. In particular a text that starts with a shape is refused, and so is a text without quotes and comments that does not close every bracket it opens. (Layout may be missing between any two tokens: `listD{member:E}` is a document. The converse does not hold: some of these texts are refused, because the parser does not go back to an alternative it has left.)",
  "all texts", "there are infinitely many texts that are not documents; tests can refuse a few",
  ["atelier-smithy/src/smithy.pest", "atelier-smithy/src/parser.rs: parse_model", "atelier-smithy/src/lib.rs: SmithyReader::read"])
p("C70", "A selector is read exactly from the texts that say it",
  "Reading a text gives a selector if and only if the text is made of the words and signs that say this selector, in their order, laid out in any way: as many blanks (spaces, tabs, line feeds) as one likes before, between and after them, and at least one between two words (names, type names, shape ids, the `i` of comparisons) and between `<` and `-[`, which would otherwise be read as `<-[`. Both kinds of quotes say the same text. So a text says one selector at most, blanks do not change what it says, the displayed text of a selector that can be written is one of its texts, and every other text is refused: with an error, or with a panic if there is a number in it that is written without decimal point and is no i64.",
  "all texts, all selectors and all layouts", "there are infinitely many texts, layouts and selectors",
  ["atelier-smithy/src/selector.pest", "atelier-smithy/src/parser/selector.rs: parse_selector"])
p("C71", "JSON text is read exactly, and models survive being written as JSON text",
  "Reading a text as a JSON model reads exactly the JSON documents (RFC 8259; arrays and objects nested at most 127 deep), each as the one value it says: of entries with the same name the last one counts, integers that fit into 64 bits are exact and other numbers are floats, escapes and surrogate pairs give their characters. Every other text is refused with an error and no panic. What is written, compactly or indented, is Unicode text that says what was written, so different values have different texts, and a model that can be written (Unicode strings, finite floats, not nested too deep) is read back from its text as it is from its JSON value (C26), also through `convert` of the command line tool and a file. A value is read back exactly if it is nested at most 127 deep: deeper ones are written without complaint, but their text is refused.",
  "all texts, all JSON values and all models", "there are infinitely many texts, escapes, nestings and models",
  ["atelier-json/src/reader.rs: JsonReader::read", "atelier-json/src/writer.rs: JsonWriter::write", "cargo-atelier/src/actions.rs: convert_file_format"])
p("C72", "Models that are read and models that are built are well formed",
  "Whatever a text says (keys, members, traits given twice, shapes given in pieces), a model read from it, as JSON AST or as IDL, is well formed throughout: no object, metadata or shape table holds a key twice, shapes and members are stored under their own ids and names, no shape, and no member, is applied the same trait twice, and no trait is applied by the id of a member. So are the models that `ModelBuilder::build` makes from well-formed values, provided that `uses` imports shapes and not members (if it imports a member, traits can be applied by its id), and the models assembled from any files, with no assumption on the readers: an assembled model is exactly the combination of the files found (C38, C51).",
  "all texts, all builder histories, all directories", "there are infinitely many texts, histories and trees of files",
  ["atelier-json/src/reader.rs: JsonReader::read", "atelier-smithy/src/parser.rs: parse_model", "atelier-core/src/builder/mod.rs: ModelBuilder", "atelier-assembler/src/lib.rs: ModelAssembler", "cargo-atelier/src/actions.rs: assemble_model"])
p("C73", "A model kept in several files is the model assembled from them",
  "Divide a model over files: every metadata entry and every shape goes to exactly one of them (shapes of other files may be mentioned there as well, unresolved and without traits), and each part is written as JSON or in the Smithy IDL, in a form that keeps it (C40, C71). Put the files, with their extensions in any case, anywhere below the paths given to the assembler (or the command line tool), next to any files of other kinds. Then assembling succeeds and gives a model equal (`==`) to the undivided one, however the directories are listed and in whatever order the parts are read.",
  "all models, divisions, directories, file names and orders of reading", "there are infinitely many models, divisions and trees of files",
  ["atelier-assembler/src/lib.rs: ModelAssembler, FileTypeRegistry", "atelier-core/src/model/mod.rs: Model::merge", "atelier-json/src/{reader,writer}.rs", "atelier-smithy/src/{parser,writer}.rs", "cargo-atelier/src/actions.rs: assemble_model"])
p("C74", "The command line decides what is read, run and printed",
  "Whatever sub-command is given, with any arguments: the model it works on is made of exactly the JSON and Smithy files at or below the paths given with `--in-file` and the directories of the search path: the standard one if `--default-search-env` is given, else that of the variable named by `--search-env`, else none. `lint` and `validate` end successfully exactly when assembling them succeeds (C38), and print what the linters (the validators) report of it, in colour unless `--no-color` is given; `convert` and `document` print nothing unless it does, and `convert` then prints the model in the given format and namespace. Run through cargo (with the extra word `atelier`) or directly, the tool does the same.",
  "all parsed command lines, trees of files and models", "there are infinitely many arguments and trees of files",
  ["cargo-atelier/src/command_line.rs: parse, make_search_path, check_command_line", "cargo-atelier/src/bin/main.rs: main", "cargo-atelier/src/actions.rs"])
p("C75", "However often a model is converted, it stays the same",
  "Take a well-formed model without NaN, and one or both of JSON and the IDL of one namespace, such that the model can be written so without leaving anything out. Convert whatever files make it (any number, C73), and then, any number of times and in any order of these representations, put what the tool printed into a file with the right extension, in any tree, and convert that. Every run succeeds, and what is assembled of the text the last one printed equals the model.",
  "all such models, trees, and sequences of conversions of any length", "there are infinitely many models, and each round trip could lose or reorder something that only the next shows",
  ["cargo-atelier/src/actions.rs: convert_file_format", "atelier-assembler/src/lib.rs", "atelier-json/src", "atelier-smithy/src"])
with open(os.path.join(os.path.dirname(os.path.abspath(__file__)), "..", "properties.jsonl"), "w") as f:
    for x in P: f.write(json.dumps(x, ensure_ascii=False) + "\n")
print(len(P))
