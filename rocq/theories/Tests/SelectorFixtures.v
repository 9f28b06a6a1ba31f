(** The selectors of atelier-smithy/tests/selector_tests.rs: which are read, and that what is read is written as text that is
    read as the same.
    Written by tools/gen_fixtures.py. *)
From Verif.Model Require Import Selector SelectorGrammar SelectorParse Peg.
From Verif.Spec Require Import Witness.
Definition bytes (l : list N) : str := map ascii_of_N l.
Definition text (l : list string) : str := join [ascii_of_N 10] (map lit l).

(** As [parse_selector], with less fuel. *)
Definition read (s : str) : result selector :=
  match run selector_grammar 3000 false (PCall S_input) s with
  | Some (Some (pairs, _)) =>
      x <- next pairs ;; y <- next (p_inner (fst x)) ;; parse_a_selector (fun _ => 0%Z) (fst y)
  | Some None => Err (EDeserialization (lit "pest"))
  | None => Panic
  end.
Definition accepted : list str := [
  (lit "*");
  (lit "number");
  (lit "simpleType");
  (lit "collection");
  (lit "blob");
  (lit "boolean");
  (lit "document");
  (lit "string");
  (lit "integer");
  (lit "byte");
  (lit "short");
  (lit "long");
  (lit "float");
  (lit "double");
  (lit "bigDecimal");
  (lit "bigInteger");
  (lit "timestamp");
  (lit "list");
  (lit "set");
  (lit "map");
  (lit "structure");
  (lit "union");
  (lit "service");
  (lit "operation");
  (lit "resource");
  (lit "member");
  (lit "[trait|deprecated]");
  (lit "[trait|enum|(values)|tags|(values)]");
  (lit "[id|namespace = 'smithy.example']");
  (lit "[trait|since = 2019, 2020]");
  (lit "[trait|httpError > 500]");
  (lit "[trait|range|min = 1]");
  (lit "[trait|documentation|invalid|child = Hi]");
  (lit "string [trait|sensitive]");
  (lit "[id = foo.baz#Structure]");
  (lit "[id = 'foo.baz#Structure$foo']");
  (lit "[id|name = MyShape]");
  (lit "[id|member = foo]");
  (lit "[id|(length) > 80]");
  (lit "[id|member|(length) > 20]");
  (lit "[service]");
  (lit "service");
  (lit "[service = smithy.example#MyService]");
  (lit "[service|version ^= '2018-']");
  (lit "[trait|(keys)|namespace = 'smithy.example']");
  (lit "[trait|(values)|tags]");
  (lit "[trait|(length) > 10]");
  (lit "[trait|smithy.api#deprecated]");
  (lit "[trait|deprecated]");
  (lit "[trait|error = client]");
  (lit "[trait|error != client]");
  (lit "[trait|documentation *= TODO, FIXME]");
  (lit "[trait|externalDocumentation|(keys) = Homepage]");
  (lit "[trait|enum|(values)|tags|(values) = internal]");
  (lit "[trait|documentation|(length) < 3]");
  (lit "[trait|externalDocumentation|'Reference Docs']");
  (text ["service";
    "[trait|smithy.example#allowedTags]";
    "$service(*)";
    "~>";
    "[trait|tags]";
    ":not([@: @{trait|tags|(values)} = @{var|service|trait|smithy.example#allowedTags|(values)}])"]%string);
  (text ["service";
    "[trait|smithy.example#allowedTags]";
    "$service(*)";
    "~>";
    "[trait|enum]";
    ":not([@: @{trait|enum|(values)|tags|(values)}";
    "         = @{var|service|trait|smithy.example#allowedTags|(values)}])"]%string);
  (text ["service";
    "[trait|smithy.example#allowedTags]";
    "$service(*)";
    "~>";
    "[trait|enum]";
    ":not([@: @{trait|enum|(values)|tags|(values)}";
    "         {<} @{var|service|trait|smithy.example#allowedTags|(values)}])"]%string);
  (lit "[@trait|range: @{min} > @{max} i]");
  (lit "[trait|trait][@: @{trait|(keys)} = @{id}]");
  (text ["[@trait|enum|(values):";
    "    @{deprecated} = true &&";
    "    @{tags|(values)} = ""deprecated""]"]%string);
  (text ["[@trait|idRef:";
    "    @{failWhenMissing} = true &&";
    "    @{errorMessage} ?= false]"]%string);
  (text ["[@trait|httpApiKeyAuth:";
    "    @{name} = header &&";
    "    @{in} != 'x-api-token', 'authorization']"]%string);
  (text ["[@trait|httpApiKeyAuth:";
    "    @{name} = header i &&";
    "    @{in} != 'x-api-token', 'authorization' i]"]%string);
  (text ["[@trait|httpApiKeyAuth:";
    "    @{name} = header &&";
    "    @{in} != 'x-api-token', 'authorization' i]"]%string);
  (lit "map > member");
  (lit "list > member > string");
  (lit "operation > *");
  (lit "operation -[input, output]-> structure");
  (lit "service :test(-[trait]-> [trait|protocolDefinition])");
  (lit "service ~> operation");
  (text ["service[trait|aws.protocols#restJson1]";
    "    ~> operation:not([trait|http])"]%string);
  (lit "string :test(< member < list)");
  (lit ":not([trait|trait]) :not(< *)");
  (text ["[trait|streaming]";
    ":test(<)";
    ":not(< member < structure <-[input, output]- operation)"]%string);
  (lit "[trait|trait] :not(<-[trait]-)");
  (lit "list:test(> member > string)")].
Definition refused : list str := [
  (lit "")].
Example all_accepted : map (fun s => is_ok (read s)) accepted = map (fun _ => true) accepted.
Proof. vm_compute. reflexivity. Qed.
Example all_refused : map (fun s => is_ok (read s)) refused = map (fun _ => false) refused.
Proof. vm_compute. reflexivity. Qed.
