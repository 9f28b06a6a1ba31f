(** Model of atelier-core/src/prelude.rs: the names defined in the prelude. *)
From Verif.Model Require Export Identity.

(** PRELUDE_NAMESPACE, prelude.rs:63-67. *)
Definition prelude_ns : str := "smithy.api".
(** PRELUDE_SHAPES, prelude.rs:75-101. *)
Definition prelude_shapes : list string :=
  ["String"; "Blob"; "BigInteger"; "BigDecimal"; "Timestamp"; "Document"; "Boolean"; "PrimitiveBoolean"; "Byte";
   "PrimitiveByte"; "Short"; "PrimitiveShort"; "Integer"; "PrimitiveInteger"; "Long"; "PrimitiveLong"; "Float";
   "PrimitiveFloat"; "Double"; "PrimitiveDouble"]%string.
(** PRELUDE_TRAITS, prelude.rs:103-181. *)
Definition prelude_traits : list string :=
  ["xmlFlattened"; "references"; "StructurallyExclusive"; "streaming"; "requiresLength"; "uniqueItems"; "examples";
   "timestampFormat"; "httpError"; "httpBasicAuth"; "documentation"; "httpQuery"; "suppress"; "since"; "trait";
   "httpBearerAuth"; "httpPayload"; "httpApiKeyAuth"; "cors"; "idRef"; "unstable"; "hostLabel"; "NonEmptyString";
   "private"; "title"; "required"; "enum"; "idempotencyToken"; "tags"; "HttpApiKeyLocations"; "optionalAuth";
   "xmlAttribute"; "xmlName"; "httpHeader"; "authDefinition"; "resourceIdentifier"; "Example"; "mediaType";
   "httpChecksumRequired"; "idempotent"; "endpoint"; "eventHeader"; "sensitive"; "TraitShapeIdList"; "error";
   "EnumDefinition"; "protocolDefinition"; "EnumConstantBodyName"; "deprecated"; "httpPrefixHeaders"; "eventPayload";
   "noReplace"; "http"; "externalDocumentation"; "jsonName"; "auth"; "retryable"; "httpDigestAuth"; "range"; "box";
   "TraitShapeId"; "Reference"; "NonEmptyStringMap"; "paginated"; "NonEmptyStringList"; "pattern"; "readonly";
   "recommended"; "httpLabel"; "AuthTraitReference"; "xmlNamespace"; "length"]%string.
(** [HashSet<&str>::contains]: exact text. *)
Definition contains_str (l : list string) (s : str) : bool := existsb (fun x => str_eqb (lit x) s) l.
(** [prelude_shape_named], prelude.rs:51-57. *)
Definition prelude_shape_named (n : str) : result shape_id := i <- ident_from_str n ;; Ok (sid_new prelude_ns i None).
