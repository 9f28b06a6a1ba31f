(** The test cases of atelier-core/tests, atelier-rdf/src/urn.rs and atelier-test/src, run on the model. The lists of
    lines are those of the repository. *)
From Verif.Model Require Import Builder Fluent ValueBuild SemModel Lines Actions Visitor Identity Prelude Urn.

(** A hasher that reads the whole text, as Rust's does. *)
Definition poly (s : str) : Z := fold_left (fun h c => (h * 257 + Z.of_N (ch_N c) + 1) mod 1000000007)%Z s 7%Z.
Definition poly_hasher : Hasher :=
  {| hash_str := poly;
     hash_sid := fun i => poly (sid_ns i ++ lit "#" ++ sid_name i ++ match sid_member i with Some m => lit "$" ++ m | None => [] end) |}.
#[local] Existing Instance poly_hasher.

(** ** core_identity_types.rs *)
Definition verdicts {A} (f : str -> result A) (l : list string) : list bool := map (fun s => is_ok (f (lit s))) l.
Example identifiers :
  map (fun s => ident_is_valid (lit s)) ["a"; "aBc"; "_aBc"; "___aBc"; "a1"; "a1c"; "a_c"; "a_"]%string = repeat true 8 /\
  map (fun s => ident_is_valid (lit s)) [""; "_"; "1"; "1a"; "_1"; "a!"]%string = repeat false 6 /\
  verdicts ident_from_str ["a"; "aBc"; "_aBc"; "___aBc"; "a1"; "a1c"; "a_c"; "a_"] = repeat true 8 /\
  verdicts ident_from_str [""; "_"; "1"; "1a"; "_1"; "a!"] = repeat false 6.
Proof. repeat split; vm_compute; reflexivity. Qed.
Example namespaces_of_text :
  verdicts ns_from_str ["aBc"; "aBc.dEf"; "aBc.dEf.gHi"] = repeat true 3 /\
  verdicts ns_from_str [""; ".aBc"; "aBc."] = repeat false 3.
Proof. repeat split; vm_compute; reflexivity. Qed.
Example shape_ids :
  verdicts sid_from_str ["aBc#dEf"; "aBc.dEf#gHi"; "aBc#dEf$xYz"; "aBc.dEf#gHi$xYz"] = repeat true 4 /\
  verdicts sid_from_str [""; "aBc"; "aBc$xYz"] = repeat false 3 /\
  sid_from_str "com.example#SomeShapeName" = Ok (SID "com.example" "SomeShapeName" None) /\
  sid_from_str "com.example#SomeShapeName$aMember" = Ok (SID "com.example" "SomeShapeName" (Some (lit "aMember"))).
Proof. repeat split; vm_compute; reflexivity. Qed.

(** ** urn.rs *)
Example urns :
  shape_to_iri (SID "example.namespace" "shape" None) = iri_from_str "urn:smithy:example.namespace:shape" /\
  shape_to_iri (SID "example.namespace" "shape" (Some (lit "member"))) = iri_from_str "urn:smithy:example.namespace:shape/member" /\
  map (fun s => is_ok (iri_to_shape (iri_from_str (lit s))))
    ["urn:Smithy:example.namespace:shape/member"; "smithy:example.namespace:shape/member";
     "urn:example.namespace:shape/member"; "urn:smithy:shape/member"; "urn:smithy::shape/member";
     "urn:smithy:example.namespace:shape/"; "urn:smithy:example.namespace:shape$member";
     "urn:smithy:example.namespace#shape/member"; "urn:smithy:example.namespace:shape/member/other"]%string = repeat false 9.
Proof. repeat split; vm_compute; reflexivity. Qed.

(** ** Chains of builder calls *)
Notation "b |> f" := (rbind b f) (at level 50, left associativity, only parsing).
Notation "x >>> f" := (fun y => rbind x (fun a => f y a)) (at level 45, only parsing).
Definition put (s : result shape_builder) (b : builder) : result builder := x <- s ;; Ok (bd_insert b x).
Definition uses (id : string) (b : builder) : result builder := bd_uses b (lit id).
Definition start (ns : string) : result builder := builder_new V10 (lit ns).
Definition finish (b : result builder) : result model := x <- b ;; build x.
Definition carrying (t : result trait_builder) (s : shape_builder) : result shape_builder := x <- t ;; Ok (sb_apply s x).
Definition with_member (m : result member_builder) (s : shape_builder) : result shape_builder := x <- m ;; Ok (structure_add_member s x).
Definition must (m : result member_builder) : result member_builder := x <- m ;; t <- tr_required ;; Ok (mb_apply x t).
Definition simple_member (n : string) (s : simple) : result member_builder := member_simple (lit n) s.
Definition to (n t : string) : result member_builder := member_new (lit n) (lit t).
Definition field (n t : string) (s : shape_builder) : result shape_builder := structure_member s (lit n) (lit t).
Definition of {A} (f : shape_builder -> str -> result A) (x : string) (s : shape_builder) : result A := f s (lit x).
Definition shown (s : str) : str := dquote :: s ++ [dquote].
Definition lines_of (b : result builder) : result (list str) :=
  m <- finish b ;; Ok (make_line_oriented_form (fun _ => []) shown m).
Definition are (l : list string) : result (list str) := Ok (map lit l).

(** ** core_resolver.rs *)
Definition resolver : result builder :=
  start "smithy.example" |> uses "foo.baz#Bar"
  |> put (simple_new "MyString" SString)
  |> put (structure_new "MyStructure" |> field "a" "MyString" |> field "b" "smithy.example#MyString"
          |> field "c" "Bar" |> field "d" "String" |> field "e" "MyBoolean" |> field "f" "InvalidShape")
  |> put (simple_new "MyBoolean" SBoolean).
Example resolved_as_expected :
  (m <- finish resolver ;; Ok (is_complete m)) = Ok false /\
  lines_of resolver = are
   ["boolean::smithy.example#MyBoolean";
    "string::smithy.example#MyString";
    "structure::smithy.example#MyStructure";
    "structure::smithy.example#MyStructure::a=>smithy.example#MyString";
    "structure::smithy.example#MyStructure::b=>smithy.example#MyString";
    "structure::smithy.example#MyStructure::c=>foo.baz#Bar";
    "structure::smithy.example#MyStructure::d=>smithy.api#String";
    "structure::smithy.example#MyStructure::e=>smithy.example#MyBoolean";
    "structure::smithy.example#MyStructure::f=>smithy.example#InvalidShape";
    "unresolved::foo.baz#Bar";
    "unresolved::smithy.example#InvalidShape"]%string.
Proof. split; vm_compute; reflexivity. Qed.

(** ** core_line_writer.rs, with the models of atelier-test *)
Definition message_of_the_day : result builder :=
  start "example.motd"
  |> put (service_new "MessageOfTheDay" "2020-06-21"
          |> carrying (tr_documentation "Provides a Message of the day.") |> of service_resource "Message")
  |> put (resource_new "Message" |> (fun r => resource_identifier r "date" "Date") |> of resource_read "GetMessage")
  |> put (simple_new "Date" SString |> carrying (tr_pattern "^\d\d\d\d\-\d\d-\d\d$"))
  |> put (operation_new "GetMessage" |> carrying tr_readonly |> of operation_input "GetMessageInput"
          |> of operation_output "GetMessageOutput" |> of operation_error "BadDateValue")
  |> put (structure_new "GetMessageInput" |> field "date" "Date")
  |> put (structure_new "GetMessageOutput" |> with_member (must (simple_member "message" SString)))
  |> put (structure_new "BadDateValue" |> carrying (tr_error_source Client)
          |> with_member (must (simple_member "errorMessage" SString))).
Example message_of_the_day_lines :
  lines_of message_of_the_day = are
   ["operation::example.motd#GetMessage";
    "operation::example.motd#GetMessage::error=>example.motd#BadDateValue";
    "operation::example.motd#GetMessage::input=>example.motd#GetMessageInput";
    "operation::example.motd#GetMessage::output=>example.motd#GetMessageOutput";
    "operation::example.motd#GetMessage::trait::smithy.api#readonly<={}";
    "resource::example.motd#Message";
    "resource::example.motd#Message::identifier::date=>example.motd#Date";
    "resource::example.motd#Message::read=>example.motd#GetMessage";
    "service::example.motd#MessageOfTheDay";
    "service::example.motd#MessageOfTheDay::resource=>example.motd#Message";
    "service::example.motd#MessageOfTheDay::trait::smithy.api#documentation<=""Provides a Message of the day.""";
    "service::example.motd#MessageOfTheDay::version<=""2020-06-21""";
    "string::example.motd#Date";
    "string::example.motd#Date::trait::smithy.api#pattern<=""^\d\d\d\d\-\d\d-\d\d$""";
    "structure::example.motd#BadDateValue";
    "structure::example.motd#BadDateValue::errorMessage::trait::smithy.api#required<={}";
    "structure::example.motd#BadDateValue::errorMessage=>smithy.api#String";
    "structure::example.motd#BadDateValue::trait::smithy.api#error<=""client""";
    "structure::example.motd#GetMessageInput";
    "structure::example.motd#GetMessageInput::date=>example.motd#Date";
    "structure::example.motd#GetMessageOutput";
    "structure::example.motd#GetMessageOutput::message::trait::smithy.api#required<={}";
    "structure::example.motd#GetMessageOutput::message=>smithy.api#String"]%string.
Proof. vm_compute. reflexivity. Qed.

Definition weather : result builder :=
  start "example.weather"
  |> put (service_new "Weather" "2006-03-01" |> carrying (tr_documentation "Provides weather forecasts.")
          |> carrying (tr_paginated (Some (lit "nextToken")) (Some (lit "nextToken")) None (Some (lit "pageSize")))
          |> of service_resource "City" |> of service_operation "GetCurrentTime")
  |> put (resource_new "City" |> (fun r => resource_identifier r "cityId" "CityId") |> of resource_read "GetCity"
          |> of resource_list "ListCities" |> of resource_resource "Forecast")
  |> put (resource_new "Forecast" |> (fun r => resource_identifier r "cityId" "CityId") |> of resource_read "GetForecast")
  |> put (simple_new "CityId" SString |> carrying (tr_pattern "^[A-Za-z0-9 ]+$"))
  |> put (operation_new "GetCity" |> carrying tr_readonly |> of operation_input "GetCityInput"
          |> of operation_output "GetCityOutput" |> of operation_error "NoSuchResource")
  |> put (structure_new "GetCityInput" |> with_member (must (to "cityID" "CityId")))
  |> put (structure_new "GetCityOutput" |> with_member (must (simple_member "name" SString))
          |> with_member (must (to "coordinates" "CityCoordinates")))
  |> put (structure_new "CityCoordinates" |> with_member (must (simple_member "latitude" SFloat))
          |> with_member (must (simple_member "longitude" SFloat)))
  |> put (structure_new "NoSuchResource" |> carrying (tr_error_source Client)
          |> with_member (must (simple_member "resourceType" SString)))
  |> put (operation_new "ListCities" |> carrying (tr_paginated None None (Some (lit "items")) None) |> carrying tr_readonly
          |> of operation_input "ListCitiesInput" |> of operation_output "ListCitiesOutput")
  |> put (structure_new "ListCitiesInput" |> (fun s => structure_simple s "nextToken" SString)
          |> (fun s => structure_simple s "pageSize" SInteger))
  |> put (structure_new "ListCitiesOutput" |> (fun s => structure_simple s "nextToken" SString)
          |> with_member (must (to "items" "CitySummaries")))
  |> put (list_new "CitySummaries" "CitySummary")
  |> put (structure_new "CitySummary"
          |> carrying (tr_references (vab_value (vab_push [] (vob_value (vob_reference [] (lit "resource") (lit "City"))))))
          |> with_member (must (to "cityId" "CityId")) |> with_member (must (simple_member "name" SString)))
  |> put (operation_new "GetCurrentTime" |> carrying tr_readonly |> of operation_output "GetCurrentTimeOutput")
  |> put (structure_new "GetCurrentTimeOutput" |> with_member (must (simple_member "time" STimestamp)))
  |> put (operation_new "GetForecast" |> carrying tr_readonly |> of operation_input "GetForecastInput"
          |> of operation_output "GetForecastOutput")
  |> put (structure_new "GetForecastInput" |> with_member (must (to "cityId" "CityId")))
  |> put (structure_new "GetForecastOutput" |> (fun s => structure_simple s "chanceOfRain" SFloat)).
Example weather_lines :
  lines_of weather = are
   ["list::example.weather#CitySummaries";
    "list::example.weather#CitySummaries::member=>example.weather#CitySummary";
    "operation::example.weather#GetCity";
    "operation::example.weather#GetCity::error=>example.weather#NoSuchResource";
    "operation::example.weather#GetCity::input=>example.weather#GetCityInput";
    "operation::example.weather#GetCity::output=>example.weather#GetCityOutput";
    "operation::example.weather#GetCity::trait::smithy.api#readonly<={}";
    "operation::example.weather#GetCurrentTime";
    "operation::example.weather#GetCurrentTime::output=>example.weather#GetCurrentTimeOutput";
    "operation::example.weather#GetCurrentTime::trait::smithy.api#readonly<={}";
    "operation::example.weather#GetForecast";
    "operation::example.weather#GetForecast::input=>example.weather#GetForecastInput";
    "operation::example.weather#GetForecast::output=>example.weather#GetForecastOutput";
    "operation::example.weather#GetForecast::trait::smithy.api#readonly<={}";
    "operation::example.weather#ListCities";
    "operation::example.weather#ListCities::input=>example.weather#ListCitiesInput";
    "operation::example.weather#ListCities::output=>example.weather#ListCitiesOutput";
    "operation::example.weather#ListCities::trait::smithy.api#paginated<={items}=""items""";
    "operation::example.weather#ListCities::trait::smithy.api#readonly<={}";
    "resource::example.weather#City";
    "resource::example.weather#City::identifier::cityId=>example.weather#CityId";
    "resource::example.weather#City::list=>example.weather#ListCities";
    "resource::example.weather#City::read=>example.weather#GetCity";
    "resource::example.weather#City::resource=>example.weather#Forecast";
    "resource::example.weather#Forecast";
    "resource::example.weather#Forecast::identifier::cityId=>example.weather#CityId";
    "resource::example.weather#Forecast::read=>example.weather#GetForecast";
    "service::example.weather#Weather";
    "service::example.weather#Weather::operation=>example.weather#GetCurrentTime";
    "service::example.weather#Weather::resource=>example.weather#City";
    "service::example.weather#Weather::trait::smithy.api#documentation<=""Provides weather forecasts.""";
    "service::example.weather#Weather::trait::smithy.api#paginated<={inputToken}=""nextToken""";
    "service::example.weather#Weather::trait::smithy.api#paginated<={outputToken}=""nextToken""";
    "service::example.weather#Weather::trait::smithy.api#paginated<={pageSize}=""pageSize""";
    "service::example.weather#Weather::version<=""2006-03-01""";
    "string::example.weather#CityId";
    "string::example.weather#CityId::trait::smithy.api#pattern<=""^[A-Za-z0-9 ]+$""";
    "structure::example.weather#CityCoordinates";
    "structure::example.weather#CityCoordinates::latitude::trait::smithy.api#required<={}";
    "structure::example.weather#CityCoordinates::latitude=>smithy.api#Float";
    "structure::example.weather#CityCoordinates::longitude::trait::smithy.api#required<={}";
    "structure::example.weather#CityCoordinates::longitude=>smithy.api#Float";
    "structure::example.weather#CitySummary";
    "structure::example.weather#CitySummary::cityId::trait::smithy.api#required<={}";
    "structure::example.weather#CitySummary::cityId=>example.weather#CityId";
    "structure::example.weather#CitySummary::name::trait::smithy.api#required<={}";
    "structure::example.weather#CitySummary::name=>smithy.api#String";
    "structure::example.weather#CitySummary::trait::smithy.api#references<=[0]={resource}=""City""";
    "structure::example.weather#GetCityInput";
    "structure::example.weather#GetCityInput::cityID::trait::smithy.api#required<={}";
    "structure::example.weather#GetCityInput::cityID=>example.weather#CityId";
    "structure::example.weather#GetCityOutput";
    "structure::example.weather#GetCityOutput::coordinates::trait::smithy.api#required<={}";
    "structure::example.weather#GetCityOutput::coordinates=>example.weather#CityCoordinates";
    "structure::example.weather#GetCityOutput::name::trait::smithy.api#required<={}";
    "structure::example.weather#GetCityOutput::name=>smithy.api#String";
    "structure::example.weather#GetCurrentTimeOutput";
    "structure::example.weather#GetCurrentTimeOutput::time::trait::smithy.api#required<={}";
    "structure::example.weather#GetCurrentTimeOutput::time=>smithy.api#Timestamp";
    "structure::example.weather#GetForecastInput";
    "structure::example.weather#GetForecastInput::cityId::trait::smithy.api#required<={}";
    "structure::example.weather#GetForecastInput::cityId=>example.weather#CityId";
    "structure::example.weather#GetForecastOutput";
    "structure::example.weather#GetForecastOutput::chanceOfRain=>smithy.api#Float";
    "structure::example.weather#ListCitiesInput";
    "structure::example.weather#ListCitiesInput::nextToken=>smithy.api#String";
    "structure::example.weather#ListCitiesInput::pageSize=>smithy.api#Integer";
    "structure::example.weather#ListCitiesOutput";
    "structure::example.weather#ListCitiesOutput::items::trait::smithy.api#required<={}";
    "structure::example.weather#ListCitiesOutput::items=>example.weather#CitySummaries";
    "structure::example.weather#ListCitiesOutput::nextToken=>smithy.api#String";
    "structure::example.weather#NoSuchResource";
    "structure::example.weather#NoSuchResource::resourceType::trait::smithy.api#required<={}";
    "structure::example.weather#NoSuchResource::resourceType=>smithy.api#String";
    "structure::example.weather#NoSuchResource::trait::smithy.api#error<=""client"""]%string.
Proof. vm_compute. reflexivity. Qed.

Example namespace_only : lines_of (start "smithy.waiters") = are [].
Proof. vm_compute. reflexivity. Qed.
Example simple_shape_only :
  lines_of (start "smithy.waiters" |> put (simple_new "WaiterDelay" SInteger)) = are ["integer::smithy.waiters#WaiterDelay"].
Proof. vm_compute. reflexivity. Qed.
Example simple_shape_with_block_text_2 :
  lines_of (start "example.foo" |> put (simple_new "FooDelay" SInteger
              |> carrying (tr_documentation "Do empty """" quotes work too?"))) = are
   ["integer::example.foo#FooDelay";
    "integer::example.foo#FooDelay::trait::smithy.api#documentation<=""Do empty """" quotes work too?"""]%string.
Proof. vm_compute. reflexivity. Qed.
Example simple_shape_with_traits :
  lines_of (start "smithy.waiters" |> put (simple_new "WaiterDelay" SInteger
              |> carrying tr_boxed |> carrying (tr_range (Some 1%Z) None))) = are
   ["integer::smithy.waiters#WaiterDelay";
    "integer::smithy.waiters#WaiterDelay::trait::smithy.api#box<={}";
    "integer::smithy.waiters#WaiterDelay::trait::smithy.api#range<={min}=1"]%string /\
  lines_of (start "smithy.waiters" |> put (simple_new "WaiterDelay" SInteger
              |> carrying tr_boxed |> carrying (tr_range_min 1%Z))) = are
   ["integer::smithy.waiters#WaiterDelay";
    "integer::smithy.waiters#WaiterDelay::trait::smithy.api#box<={}";
    "integer::smithy.waiters#WaiterDelay::trait::smithy.api#range<={min}=1"]%string.
Proof. split; vm_compute; reflexivity. Qed.
Example simple_shape_with_documentation :
  lines_of (start "smithy.waiters" |> put (simple_new "WaiterName" SString
              |> carrying (tr_documentation "The name, or identifier, of a waiter.")
              |> carrying (tr_pattern "^[A-Z]+[A-Za-z0-9]*$"))) = are
   ["string::smithy.waiters#WaiterName";
    "string::smithy.waiters#WaiterName::trait::smithy.api#documentation<=""The name, or identifier, of a waiter.""";
    "string::smithy.waiters#WaiterName::trait::smithy.api#pattern<=""^[A-Z]+[A-Za-z0-9]*$"""]%string.
Proof. vm_compute. reflexivity. Qed.
Example service_with_renames :
  lines_of (start "smithy.example" |> put (operation_new "GetSomething")
            |> put (service_new "MyService" "2017-02-11" |> of service_operation "GetSomething"
                    |> (fun s => service_rename s "foo.example#Widget" "FooWidget"))) = are
   ["operation::smithy.example#GetSomething";
    "service::smithy.example#MyService";
    "service::smithy.example#MyService::operation=>smithy.example#GetSomething";
    "service::smithy.example#MyService::rename::foo.example#Widget<=FooWidget";
    "service::smithy.example#MyService::version<=""2017-02-11"""]%string.
Proof. vm_compute. reflexivity. Qed.

(** ** core_validators.rs, core_shape_operation.rs *)
Fixpoint once (x : str) (l : list str) : option (list str) :=
  match l with [] => None | y :: r => if str_eqb x y then Some r else option_map (cons y) (once x r) end.
(** As many messages as expected, and each of those expected among them. *)
Definition messages (expected : list string) (r : result (list issue)) : bool :=
  match r with
  | Ok l => Nat.eqb (length l) (length expected)
            && forallb (fun e => existsb (fun i => str_eqb (i_message i) (lit e)) l) expected
  | _ => false
  end.
Definition validated : result builder :=
  start "smithy.example" |> uses "foo.baz#Bar"
  |> put (structure_new "MyStructure" |> field "a" "MyString" |> field "b" "smithy.example#MyString"
          |> field "d" "foo.baz#Bar" |> field "e" "foo.baz#MyString" |> field "f" "String" |> field "g" "MyBoolean"
          |> carrying (trait_new "documentation" None))
  |> put (simple_new "MyString" SString) |> put (simple_new "MyBoolean" SBoolean).
Example correct_type_references :
  messages ["smithy.example#MyStructure member e's type (foo.baz#MyString) cannot be resolved to a shape in this model.";
    "The simple shape (smithy.example#MyString) is simply a synonym, did you mean to add any constraint traits?";
    "The simple shape (smithy.example#MyBoolean) is simply a synonym, did you mean to add any constraint traits?"]
    (m <- finish validated ;; snd (run_actions [Action [] ctr_validate] m false)) = true.
Proof. vm_compute. reflexivity. Qed.
Example unresolved_references :
  messages ["The model has an unresolved reference to shape 'foo.baz#Bar'"]
    (m <- finish (start "smithy.example" |> uses "foo.baz#Bar" |> put (simple_new "MyBoolean" SBoolean)) ;;
     snd (run_actions [Action [] nur_validate] m false)) = true.
Proof. vm_compute. reflexivity. Qed.
Definition api (n : string) : shape_id := SID "smithy.api" (lit n) None.
Example shape_operation :
  (m <- finish (start "smithy.example" |> put (operation_new "MyOperation" |> of operation_input "smithy.api#String"
                  |> of operation_output "smithy.api#Blob")) ;;
   _ <- snd (run_actions [Action [] ctr_validate] m false) ;;
   Ok (flat_map (fun s => match ts_body s with KOperation o => [o] | _ => [] end) (shapes m)))
  = Ok [Operation (Some (api "String")) (Some (api "Blob")) []].
Proof. vm_compute. reflexivity. Qed.

(** ** core_linters.rs; heck is given as its results on the words of the test *)
Definition table (l : list (string * string)) (s : str) : str :=
  match find (fun e => str_eqb (lit (fst e)) s) l with Some e => lit (snd e) | None => s end.
Definition camel := table [("shouldBeUpper", "ShouldBeUpper"); ("ThingAsJSON", "ThingAsJson")]%string.
Definition mixed := table [("BadTraitName", "badTraitName"); ("BadName", "badName")]%string.
Definition snake := table [("shouldBeUpper", "should_be_upper"); ("MyString", "my_string"); ("ThingAsJSON", "thing_as_json");
  ("TheBlacklist", "the_blacklist"); ("MyStructure", "my_structure"); ("okName", "ok_name"); ("BadName", "bad_name");
  ("checkAgainst", "check_against"); ("killMasterNode", "kill_master_node"); ("String", "string"); ("Boolean", "boolean");
  ("BadTraitName", "bad_trait_name")]%string.
Definition linted : result builder :=
  start "smithy.example" |> uses "amazon.fashion#BadTraitName"
  |> put (simple_new "smithy.example#shouldBeUpper" SString) |> put (simple_new "MyString" SString)
  |> put (simple_new "ThingAsJSON" SString) |> put (list_new "TheBlacklist" "String")
  |> put (structure_new "MyStructure" |> field "okName" "String" |> field "BadName" "MyString"
          |> field "thing" "ThingAsJSON" |> field "checkAgainst" "TheBlacklist" |> field "killMasterNode" "Boolean"
          |> carrying (trait_new "amazon.fashion#BadTraitName" None)).
Example naming_conventions :
  messages ["Trait names should conform to lowerCamelCase, i.e. badTraitName";
    "Member names should conform to lowerCamelCase, i.e. badName";
    "Defined shape names should conform to UpperCamelCase, i.e. ShouldBeUpper";
    "Defined shape names should conform to UpperCamelCase, i.e. ThingAsJson";
    "References to shape names should conform to UpperCamelCase, i.e. ThingAsJson"]
    (m <- finish linted ;; snd (run_actions [Action [] (nc_check camel mixed)] m false)) = true.
Proof. vm_compute. reflexivity. Qed.
Example unwelcome_terms :
  messages ["The term 'kill' is considered either insensitive, divisive, or otherwise unwelcome";
    "The term 'master' is considered either insensitive, divisive, or otherwise unwelcome";
    "The term 'blacklist' is considered either insensitive, divisive, or otherwise unwelcome"]
    (m <- finish linted ;; snd (run_actions [Action [] (ut_check snake)] m false)) = true.
Proof. vm_compute. reflexivity. Qed.

(** ** core_merge_metadata.rs *)
Definition num (n : Z) : value := VNumber (NInteger n).
Definition text (s : string) : value := VString (lit s).
Definition merged (a b : value) : result (bool * option value) :=
  m <- build (bd_metadata_insert (Builder "smithy.example" V10 [] []) "name" a) ;;
  let (m', r) := add_metadata m "name" b in Ok (is_ok r, metadata_value m' "name").
Definition object (b : bool) : value := VObject [(lit "bool", VBoolean b); (lit "name", text "example-model")].
Example merge_metadata_succeeds :
  merged (VArray [num 101; num 102]) (VArray [num 201; num 202]) = Ok (true, Some (VArray [num 101; num 102; num 201; num 202])) /\
  merged (text "example-model") (text "example-model") = Ok (true, Some (text "example-model")) /\
  merged (num 101) (num 101) = Ok (true, Some (num 101)) /\
  merged (VBoolean true) (VBoolean true) = Ok (true, Some (VBoolean true)) /\
  merged (object true) (object true) = Ok (true, Some (object true)).
Proof. repeat split; vm_compute; reflexivity. Qed.
Example merge_metadata_fails :
  merged (text "example-model") (VBoolean false) = Ok (false, Some (text "example-model")) /\
  merged (text "example-model") (text "another-name") = Ok (false, Some (text "example-model")) /\
  merged (num 101) (num 202) = Ok (false, Some (num 101)) /\
  merged (VBoolean true) (VBoolean false) = Ok (false, Some (VBoolean true)) /\
  (r <- merged (object true) (object false) ;; Ok (fst r)) = Ok false.
Proof. repeat split; vm_compute; reflexivity. Qed.

(** ** core_merge_traits.rs *)
Definition tagged_counter (t : result trait_builder) : result builder :=
  start "smithy.example" |> put (simple_new "counter" SInteger |> carrying t).
Definition reapplied (t : result trait_builder) (id : shape_id) (v : value) : result (bool * option (option value)) :=
  m <- finish (tagged_counter t) ;;
  match model_shape m (SID "smithy.example" "counter" None) with
  | Some s => let (ts, r) := apply_with_value (ts_traits s) id (Some v) in Ok (is_ok r, trait_named id ts)
  | None => Panic
  end.
Definition own (n : string) : shape_id := SID "smithy.example" (lit n) None.
Example merge_traits_succeeds :
  reapplied (tr_tagged [lit "tag-1"; lit "tag-2"]) (api "tags") (VArray [text "tag-3"; text "tag-1"])
    = Ok (true, Some (Some (VArray [text "tag-1"; text "tag-2"; text "tag-3"; text "tag-1"]))) /\
  reapplied (tr_since "2021-04-30") (api "since") (text "2021-04-30") = Ok (true, Some (Some (text "2021-04-30"))) /\
  reapplied (trait_new "smithy.example#revision" (Some (num 1))) (own "revision") (num 1) = Ok (true, Some (Some (num 1))) /\
  reapplied (trait_new "smithy.example#revised" (Some (VBoolean true))) (own "revised") (VBoolean true)
    = Ok (true, Some (Some (VBoolean true))) /\
  reapplied (trait_new "smithy.example#revisions" (Some (object true))) (own "revisions") (object true)
    = Ok (true, Some (Some (object true))).
Proof. repeat split; vm_compute; reflexivity. Qed.

(** ** core_merge_shapes.rs, core_merge_unresolved.rs *)
Definition ident_id : shape_id := SID "example" "Identifier" None.
Definition annotated (l : list string) : traits := map (fun n => (api n, None)) l.
Definition real_shape (boxed : bool) : shape :=
  Shape ident_id (annotated (if boxed then ["sensitive"; "box"] else ["sensitive"])) (KSimple SString).
Definition unresolved_shape (boxed : bool) : shape :=
  Shape ident_id (annotated (if boxed then ["private"; "box"] else ["private"])) KUnresolved.
Definition both (a b : shape) : result (nat * shape_kind) :=
  let (m, r) := add_shape (model_new V10) a in
  _ <- r ;; let (m', r') := add_shape m b in
  _ <- r' ;; match model_shape m' (ts_id a) with Some s => Ok (length (ts_traits s), ts_body s) | None => Panic end.
Example merge_unresolved :
  both (unresolved_shape false) (unresolved_shape false) = Ok (1, KUnresolved) /\
  both (unresolved_shape false) (unresolved_shape true) = Ok (2, KUnresolved) /\
  both (unresolved_shape false) (real_shape false) = Ok (2, KSimple SString) /\
  both (unresolved_shape false) (real_shape true) = Ok (3, KSimple SString) /\
  both (real_shape false) (unresolved_shape false) = Ok (2, KSimple SString) /\
  both (real_shape false) (unresolved_shape true) = Ok (3, KSimple SString).
Proof. repeat split; vm_compute; reflexivity. Qed.

Example merge_traits_fails :
  reapplied (tr_since "2021-04-30") (api "since") (VBoolean true) = Ok (false, Some (Some (text "2021-04-30"))) /\
  reapplied (tr_since "2021-04-30") (api "since") (text "not-a-date") = Ok (false, Some (Some (text "2021-04-30"))) /\
  reapplied (trait_new "smithy.example#revision" (Some (num 1))) (own "revision") (num 22) = Ok (false, Some (Some (num 1))) /\
  reapplied (trait_new "smithy.example#revised" (Some (VBoolean true))) (own "revised") (VBoolean false)
    = Ok (false, Some (Some (VBoolean true))) /\
  reapplied (trait_new "smithy.example#revisions" (Some (object true))) (own "revisions") (object false)
    = Ok (false, Some (Some (object true))).
Proof. repeat split; vm_compute; reflexivity. Qed.
Definition example_shape (n : string) (k : shape_kind) : shape := Shape (SID "example.smithy" (lit n) None) [] k.
Definition documented_string (d : string) : shape :=
  Shape (SID "example.smithy" "simpleString" None) [(api "documentation", Some (text d))] (KSimple SString).
Definition a_string : shape := example_shape "simpleString" (KSimple SString).
Definition collection (k : member_shape -> shape_kind) (t : string) : shape :=
  example_shape "MyCollection" (k (MS "member" [] (api t))).
Definition mapping (t : string) : shape := example_shape "MyCollection" (KMap (MS "key" [] (api t)) (MS "value" [] (api t))).
Definition record (k : members -> shape_kind) (t : string) : shape :=
  example_shape "MyCollection" (k [(lit "name", MS "name" [] (api "String")); (lit "age", MS "age" [] (api t))]).
Definition number_of_traits (a b : shape) : option nat := match both a b with Ok (n, _) => Some n | _ => None end.
Example merge_shapes_succeeds :
  number_of_traits a_string a_string = Some 0 /\
  number_of_traits (documented_string "a simple string") (documented_string "a simple string") = Some 1 /\
  number_of_traits (documented_string "a simple string") a_string = Some 1 /\
  number_of_traits a_string (documented_string "a simple string") = Some 1 /\
  number_of_traits (collection KList "String") (collection KList "String") = Some 0 /\
  number_of_traits (collection KSet "String") (collection KSet "String") = Some 0 /\
  number_of_traits (mapping "String") (mapping "String") = Some 0 /\
  number_of_traits (record KStructure "Integer") (record KStructure "Integer") = Some 0 /\
  number_of_traits (record KUnion "Integer") (record KUnion "Integer") = Some 0.
Proof. repeat split; vm_compute; reflexivity. Qed.
Example merge_shapes_fails :
  number_of_traits a_string (example_shape "simpleString" (KSimple SInteger)) = None /\
  number_of_traits (documented_string "a simple string") (documented_string "a simple string, or number") = None /\
  number_of_traits (collection KList "String") (collection KList "Integer") = None /\
  number_of_traits (collection KSet "String") (collection KSet "Integer") = None /\
  number_of_traits (mapping "String") (mapping "Integer") = None /\
  number_of_traits (record KStructure "Integer") (record KStructure "Decimal") = None /\
  number_of_traits (record KUnion "Integer") (record KUnion "Decimal") = None.
Proof. repeat split; vm_compute; reflexivity. Qed.

(** ** core_visitor.rs *)
Definition seen : list string :=
  ["service@example.motd#MessageOfTheDay"; "resource@example.motd#Message"; "simple@string@example.motd#Date";
   "operation@example.motd#GetMessage"; "structure@example.motd#GetMessageInput";
   "structure@example.motd#GetMessageOutput"; "structure@example.motd#BadDateValue"].
(** Each call of the test's visitor strikes out one of the expected texts, and one that is not there is an error. *)
Definition kind_and_id (c : call) : option str :=
  match c with
  | CSimple id _ s => Some (lit "simple@" ++ simple_display s ++ lit "@" ++ sid_display id)
  | CStructure id _ _ => Some (lit "structure@" ++ sid_display id)
  | CService id _ _ => Some (lit "service@" ++ sid_display id)
  | COperation id _ _ => Some (lit "operation@" ++ sid_display id)
  | CResource id _ _ => Some (lit "resource@" ++ sid_display id)
  | _ => None
  end.
Definition strike (c : call) (left : list str) : list str * option str :=
  match kind_and_id c with
  | None => (left, None)
  | Some t => match once t left with Some r => (r, None) | None => (left, Some t) end
  end.
Example model_visitor :
  (m <- finish message_of_the_day ;; Ok (walk_model m (Visitor strike false) (map lit seen))) = Ok ([], None).
Proof. vm_compute. reflexivity. Qed.
