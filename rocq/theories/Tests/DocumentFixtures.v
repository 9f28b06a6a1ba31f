(** The test cases of atelier-describe/tests, run on the model: the expected lines are those of the repository.
    The layout of the blocks as Markdown (the crate somedoc, outside /repo) is written out here for the blocks of
    these cases. *)
From Verif.Tests Require Import CoreFixtures.
From Verif.Model Require Import Builder Fluent Document.
#[local] Existing Instance poly_hasher.

Definition label (a b : str) : str := b ++ lit ":" ++ a.
Fixpoint inline_text (i : inline) : str :=
  match i with
  | Plain s => s
  | Code s => lit "`" ++ s ++ lit "`"
  | Bold s => lit "**" ++ s ++ lit "**"
  | Span l => flat_map inline_text l
  | Internal l c => lit "[" ++ c ++ lit "](#" ++ l ++ lit ")"
  | External u c => lit "[" ++ c ++ lit "](" ++ u ++ lit ")"
  end.
Definition inlines (l : list inline) : str := flat_map inline_text l.
Definition cell_text (c : cell) : str :=
  lit "<td>" ++ match c with CPlain s => s | CCode s => lit "`" ++ s ++ lit "`" | CSkip => [] end ++ lit "</td>".
Definition hashes (l : Document.level) : str := match l with Section1 => lit "# " | Section2 => lit "## " | Section3 => lit "### " end.
Fixpoint block_lines (b : block) : list str :=
  match b with
  | Heading l t _ => [hashes l ++ t]
  | Paragraph l => [inlines l]
  | Table cols rows =>
      [lit "<table>"; lit "<tr>" ++ flat_map (fun c => lit "<th>" ++ c ++ lit "</th>") cols ++ lit "</tr>"]
      ++ map (fun r => lit "<tr>" ++ flat_map cell_text r ++ lit "</tr>") rows ++ [lit "</table>"]
  | Quote l => flat_map (fun b => map (app (lit "> ")) (block_lines b ++ [[]])) l
  | Bullets items => map (fun i => lit "* " ++ inlines i) items
  end.
Definition document_lines (d : document) : list str :=
  (lit "[_metadata_:title]:- " ++ shown (d_title d)) :: flat_map block_lines (d_blocks d).
Definition described (b : result builder) (order : list string) : result (list str) :=
  m <- finish b ;; d <- describe_model (fun _ => []) label (map lit order) m ;; Ok (document_lines d).

Example message_of_the_day_document :
  described message_of_the_day ["example.motd"%string] = are
   ["[_metadata_:title]:- ""Smithy Model""";
    "Smithy Version: 1.0";
    "# Namespace example.motd";
    "## BadDateValue (structure)";
    "<table>";
    "<tr><th>Trait ID</th><th>Path</th><th>Value</th></tr>";
    "<tr><td>error</td><td></td><td>`client`</td></tr>";
    "</table>";
    "### Members";
    "<table>";
    "<tr><th>Trait ID</th><th>Path</th><th>Value</th></tr>";
    "<tr><td>required</td><td></td><td></td></tr>";
    "</table>";
    "> `errorMessage`: `smithy.api#String`";
    "> ";
    "## Date (string)";
    "<table>";
    "<tr><th>Trait ID</th><th>Path</th><th>Value</th></tr>";
    "<tr><td>pattern</td><td></td><td>`^\d\d\d\d\-\d\d-\d\d$`</td></tr>";
    "</table>";
    "## GetMessage (operation)";
    "<table>";
    "<tr><th>Trait ID</th><th>Path</th><th>Value</th></tr>";
    "<tr><td>readonly</td><td></td><td></td></tr>";
    "</table>";
    "> **Input type**: [GetMessageInput](#shape:GetMessageInput)";
    "> ";
    "> **Output type**: [GetMessageOutput](#shape:GetMessageOutput)";
    "> ";
    "> **Errors**:";
    "> ";
    "> * [BadDateValue](#shape:BadDateValue)";
    "> ";
    "## GetMessageInput (structure)";
    "### Members";
    "> `date`: [Date](#shape:Date)";
    "> ";
    "## GetMessageOutput (structure)";
    "### Members";
    "<table>";
    "<tr><th>Trait ID</th><th>Path</th><th>Value</th></tr>";
    "<tr><td>required</td><td></td><td></td></tr>";
    "</table>";
    "> `message`: `smithy.api#String`";
    "> ";
    "## Message (resource)";
    "### Resource Operations";
    "> * `read`: [GetMessage](#shape:GetMessage)";
    "> ";
    "## MessageOfTheDay (service)";
    "Provides a Message of the day.";
    "**Service version**: 2020-06-21";
    "### Resources";
    "> * [Message](#shape:Message)";
    "> "]%string.
Proof. vm_compute. reflexivity. Qed.
Example namespace_only_document :
  described (start "smithy.waiters") [] = are
   ["[_metadata_:title]:- ""Smithy Model""";
    "Smithy Version: 1.0"]%string.
Proof. vm_compute. reflexivity. Qed.
Example simple_shape_only_document :
  described (start "smithy.waiters" |> put (simple_new "WaiterDelay" SInteger)) ["smithy.waiters"%string] = are
   ["[_metadata_:title]:- ""Smithy Model""";
    "Smithy Version: 1.0";
    "# Namespace smithy.waiters";
    "## WaiterDelay (integer)"]%string.
Proof. vm_compute. reflexivity. Qed.
Example simple_shape_with_block_text_2_document :
  described (start "example.foo" |> put (simple_new "FooDelay" SInteger
              |> carrying (tr_documentation "Do empty """" quotes work too?"))) ["example.foo"%string] = are
   ["[_metadata_:title]:- ""Smithy Model""";
    "Smithy Version: 1.0";
    "# Namespace example.foo";
    "## FooDelay (integer)";
    "Do empty """" quotes work too?"]%string.
Proof. vm_compute. reflexivity. Qed.
(** The order of the traits of a shape is that of a hash map: here the one the test relies on. *)
Example simple_shape_with_traits_document :
  described (start "smithy.waiters" |> put (simple_new "WaiterDelay" SInteger
              |> carrying tr_boxed |> carrying (tr_range (Some 1%Z) None))) ["smithy.waiters"%string] = are
   ["[_metadata_:title]:- ""Smithy Model""";
    "Smithy Version: 1.0";
    "# Namespace smithy.waiters";
    "## WaiterDelay (integer)";
    "<table>";
    "<tr><th>Trait ID</th><th>Path</th><th>Value</th></tr>";
    "<tr><td>box</td><td></td><td></td></tr>";
    "<tr><td>range</td><td>`.min`</td><td>`1`</td></tr>";
    "</table>"]%string.
Proof. vm_compute. reflexivity. Qed.
Example simple_shape_with_documentation_document :
  described (start "smithy.waiters" |> put (simple_new "WaiterName" SString
              |> carrying (tr_documentation "The name, or identifier, of a waiter.")
              |> carrying (tr_pattern "^[A-Z]+[A-Za-z0-9]*$"))) ["smithy.waiters"%string] = are
   ["[_metadata_:title]:- ""Smithy Model""";
    "Smithy Version: 1.0";
    "# Namespace smithy.waiters";
    "## WaiterName (string)";
    "The name, or identifier, of a waiter.";
    "<table>";
    "<tr><th>Trait ID</th><th>Path</th><th>Value</th></tr>";
    "<tr><td>pattern</td><td></td><td>`^[A-Z]+[A-Za-z0-9]*$`</td></tr>";
    "</table>"]%string.
Proof. vm_compute. reflexivity. Qed.
Example service_with_renames_document :
  described (start "smithy.example" |> put (Fluent.operation_new "GetSomething")
            |> put (Fluent.service_new "MyService" "2017-02-11" |> of service_operation "GetSomething"
                    |> (fun s => service_rename s "foo.example#Widget" "FooWidget"))) ["smithy.example"%string] = are
   ["[_metadata_:title]:- ""Smithy Model""";
    "Smithy Version: 1.0";
    "# Namespace smithy.example";
    "## GetSomething (operation)";
    "## MyService (service)";
    "**Service version**: 2017-02-11";
    "### Operations";
    "> * [GetSomething](#shape:GetSomething)";
    "> ";
    "### Renames";
    "> * `foo.example#Widget` renamed to `FooWidget`";
    "> "]%string.
Proof. vm_compute. reflexivity. Qed.
