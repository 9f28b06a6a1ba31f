NOTES = {
"C01": ("proved", ""),
"C02": ("proved", ""),
"C03": ("proved", ""),
"C04": ("proved", "ASCII lower-casing"),
"C05": ("proved", "C05_equal_ids_hash_equally_refuted: the Hash/Eq contract is broken."),
"C06": ("proved", "C06_cmp_consistent_with_eq_refuted: Ord and Eq disagree."),
"C07": ("proved", ""),
    "C08": ("proved", "C08_equal_keys_refuted: the proviso is needed."),
    "C09": ("proved", ""),
    "C10": ("proved", ""),
    "C11": ("proved", ""),
    "C12": ("proved", ""),
    "C13": ("proved", "C13_failing_merge_leaves_model_unchanged_refuted: merge is not atomic."),
    "C14": ("proved", "C14_refuted: each exception is needed."),
    "C15": ("proved", "C15_merging_never_panics_refuted."),
    "C16": ("proved", "C16_queries_tell_the_truth_refuted also proves that the four queries are inverted on every argument."),
    "C17": ("proved", ""),
    "C18": ("proved", ""),
    "C19": ("proved", ""),
    "C20": ("proved", "C20_fail_fast_stops_refuted also proves that the flag has no effect at all."),
    "C21": ("proved", "C21_element_traits_refuted: element traits are never looked at."),
    "C22": ("proved", "C22_identifiers_refuted: resource identifiers are never looked at."),
    "C23": ("proved", ""),
    "C24": ("proved", "Equivalence for models meeting the stated conditions; the unconditional claim is refuted (order of id lists, unescaped keys); structure determined for all models with valid names. Injectivity of Rust's string Debug is a hypothesis."),
    "C25": ("proved", "The restrictions are needed: C25_json_refuted, C25_value_refuted."),
    "C26": ("proved", "The exceptions are needed: C26_map_refuted, C26_trait_refuted."),
    "C27": ("proved", ""),
    "C41": ("proved", "Both exceptions occur (C41_refuted, C41_ex)."),
    "C31": ("proved", ""),
    "C32": ("proved", ""),
    "C28": ("proved", ""),
    "C29": ("proved", "The unrestricted readings are refuted: C29_kind_is_preserved_refuted, C29_declared_in_own_namespace_refuted, C29_declaration_kept_refuted."),
    "C30": ("proved", "Silently dropped conflicts: the three C30_*_reported_refuted theorems."),
    "C42": ("proved", "With the refutations C42_*_refuted."),
    "C34": ("proved", "rdftk_iri's IRI is modelled as the RFC 3986 splitting. C34_accepted_is_urn_refuted: query and fragment are dropped."),
    "C35": ("proved", "rdftk_core graphs are lists of statements with fresh blank nodes; prefix mappings are left out. C35_refuted: metadata, unresolved shapes, renames, array order and repetition are lost."),
    "C36": ("proved", "The documentation of number and collection is refuted: C36_number_and_collection_as_documented_refuted."),
    "C37": ("proved", "C37_mime_refuted: MIME types survive remove and are unknown to register_all."),
    "C38": ("proved", "C38_refuted: arrays depend on the order; a file pushed with its directory is merged twice. The file system is a tree without links or I/O failures. That readers give well-formed models is a hypothesis here: C72_assembled discharges it."),
    "C33": ("proved", "pest is modelled as PEG evaluation with implicit blanks; f64 Display and FromStr are parameters. The exceptions are witnessed by the C33_*_refuted theorems."),
    "C39": ("proved", "Matching ends on every text; C39_layout: documents with the same tokens are read alike (same_tokens in Spec/LayoutSpec.v, text blocks included); C39_free_documents: all layouts of the documents of writable models. The unrestricted reading of the IDL is refuted by the C39_*_refuted theorems."),
    "C40": ("proved", "f64 Display/FromStr and str Debug are parameters; every restriction of the statement is witnessed by a C40_*_refuted theorem."),
    "C43": ("proved", "Calls are modelled on the shape builder; the typed wrappers of TopLevelShapeBuilder are variants."),
    "C44": ("proved", "usize is 64 bits wide. C44_limits_are_kept_refuted: limits of 2^63 and more are written as negative numbers."),
    "C45": ("proved", "C45_member_names_are_fixed_refuted and C45_list_member_name_is_fixed_refuted: Map::from and set_member."),
    "C46": ("proved", "C46_scoped_numbers_refuted, C46_prefix_is_kept_refuted. The conversions between builders (From) are the identity on the modelled data."),
    "C47": ("proved", "ValueBuilder's other constructors are the value constructors themselves."),
    "C48": ("proved", "The sink is assumed not to fail. Refuted readings: C48_edge_ids_distinct_refuted, C48_targets_are_nodes_refuted, C48_escaping_refuted; C48_keys_declared shows the graph's own data item uses an undeclared key."),
    "C49": ("proved", "The sink is assumed not to fail; Display for f64 and Debug for str are parameters (one line; Debug starts with a quote). Refuted readings: C49_own_package_refuted, C49_lifecycle_refuted, C49_documentation_refuted."),
    "C50": ("proved", "Label::safe_from and Display for f64 are parameters; the order of the namespace set is a parameter (a permutation). Refuted readings: C50_paths_refuted, C50_identifiers_refuted, C50_labels_refuted, C50_once_refuted, C50_no_dangling_refuted, C50_urls_refuted."),
    "C51": ("proved", "Readers, serde_json's printer (the reader undoes it on the JSON written), somedoc's renderer, heck's functions (one line in, one line out) and terminal styles are parameters; argument parsing is not modelled. Refuted: C51_errors_fail_refuted; C51_output_file shows that nothing is written to an output file."),
    "C52": ("proved", "The code reads no shapes (unimplemented!): exact outcomes proved, that models can be read back is refuted. Equality of RDF terms is taken from rdftk_core as that of IRIs, blank node names and literals."),
    "C53": ("proved", "A writer is any finite sequence of pieces that gives up when the sink refuses one, as the writers of the workspace do. That the file holds the text afterwards is refuted: it is opened with File::open."),
    "C54": ("proved", "That assertions keep a prefix and numbers as given is refuted: they become texts (C54_assertions_with_texts says which)."),
    "C55": ("proved", "Trait ids compare without case; values combine as in C10."),
    "C56": ("proved", "C56_supports_members_refuted: has_members says yes for services, operations and resources. From<f32> is left out (widening of floats)."),
    "C57": ("proved", ""),
    "C58": ("proved", "Debug for Option<String> inside a text is a parameter (self-delimiting)."),
    "C59": ("proved", "f64 is its bit pattern; its value is counted in units of 2^-1074. C59_by_value_refuted."),
    "C60": ("proved", "At the level of serde_json::Value. C60_unchanged_refuted."),
    "C61": ("proved", "For models writable in the IDL in the sense of C40 (Spec/SmithySpec.v). C61_metadata_refuted."),
    "C62": ("proved", "camel/mixed/snake case functions of the heck crate are parameters. C62_unwelcome_loci_refuted."),
    "C63": ("proved", "At the level of serde_json::Value; non-empty arrays grow (C14). C63_full_refuted."),
    "C64": ("proved", "Identifiers of a resource are numbered, so at most one is assumed in RDF (C64_rdf_refuted)."),
    "C65": ("proved", "the derived PartialEq impls, decided by a specification in terms of lookups; symmetry, transitivity, exact failure of reflexivity (NaN) and dependence on the hash function for ids that differ in case."),
    "C66": ("proved", "document trees of Spec/IdlSpec.v (text blocks included; no apply statements: those are in C68)."),
    "C67": ("proved", "for documents without clashing names; clashes are treated exactly by C29/C30 through C66."),
    "C68": ("proved", "accepted iff every statement means something (Spec/IdlFaultSpec.v), exact calls, and necessary conditions for a panic; traits are those of C66 (an argument list mixing a bare value with named arguments is not in the trees)."),
    "C69": ("proved", "Syntax soundness of the IDL parser against an independent grammar (Spec/IdlLanguageSpec.v); C69_brackets and C69_beginning are consequences that can be checked on a text."),
    "C70": ("proved", "An if-and-only-if against an independent description of texts (Spec/SelectorTextSpec.v): tokens and layout. Completeness in Proofs/SelectorLayout.v, soundness in Proofs/SelectorTextSound.v."),
    "C71": ("proved", "An if-and-only-if against the grammar of RFC 8259 (Spec/JsonTextSpec.v). serde_json is a dependency: Model/JsonText.v transcribes its documented behaviour. The reading and printing of floats are parameters; models with floats need the printed text of each to be read as the same float (float_reads). The unrestricted claim is refuted (C71_every_model_refuted): 128 levels of nesting."),
    "C72": ("proved", "The readers are those of C26/C71 and C33/C39 (number parsing is a parameter). C72_refuted: the restriction on `uses` is needed. C72_assembled and C72_tool discharge the hypothesis on the readers of C38 and C51."),
    "C73": ("proved", "Spec/ProjectSpec.v: parts_of, file_holds. The model has no NaN (NaN is not equal to itself). Printing and reading of floats, Debug of strings and the order of paths are parameters; the file system is a tree. C73_ex: a project with a JSON and an IDL file."),
    "C74": ("proved", "structopt's parser of words and crate search_path are parameters (not part of the repository); so are the printers and renderers of C51. The readers are the real ones (C72)."),
    "C75": ("proved", "The model must be kept by the representations that are used (hypotheses of C26/C71 for JSON, of C40 for the IDL; what they leave out otherwise is said there): metadata only if the IDL is not used (C75_ex_metadata), maps only if JSON is not."),
}
