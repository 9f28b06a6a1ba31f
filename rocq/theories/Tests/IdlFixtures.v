(** The Smithy IDL files and texts that the tests of atelier-smithy read, with the lines they expect of the model read.
    Written by tools/gen_fixtures.py. *)
From Verif.Model Require Import SmithyParse SmithyGrammar Peg SelectorParse Lines.
From Verif.Spec Require Import Witness.
Definition bytes (l : list N) : str := map ascii_of_N l.
Definition text (l : list string) : str := join [ascii_of_N 10] (map lit l).

(** As [parse_model], with less fuel (the result does not depend on it). *)
Definition read_text (s : str) : result model :=
  match run smithy_grammar (12 * 1000) false (PCall I_idl) s with
  | Some (Some (pairs, _)) => x <- next pairs ;; @parse_idl (fun _ => 0%Z) zero_hasher (fst x)
  | _ => Panic
  end.
(** Keys as Rust's Debug shows them, as far as they occur here. *)
Definition shown (s : str) : str := dquote :: flat_map (fun c => if Ascii.eqb c dquote then [ascii_of_N 92; c] else [c]) s ++ [dquote].
Definition lines_read (s : str) : result (list str) :=
  m <- read_text s ;; Ok (make_line_oriented_form (fun _ => []) shown m).

(** atelier-smithy/tests/good/motd.smithy *)
Example motd :
  lines_read (text ["$version: ""1.0""";
    "";
    "namespace example.motd";
    "";
    "@readonly";
    "operation GetMessage {";
    "   input: GetMessageInput";
    "   output: GetMessageInput";
    "   errors: [";
    "      BadDateValue";
    "   ]";
    "}";
    "";
    "@pattern(""^\\d\\d\\d\\d\\-\\d\\d\\-\\d\\d$"")";
    "string Date";
    "";
    "structure GetMessageOutput {";
    "   @required";
    "   message: String";
    "}";
    "";
    "resource Message {";
    "   identifiers: {";
    "      date: Date";
    "   }";
    "   read: GetMessage";
    "}";
    "";
    "@documentation(""Provides a Message of the day."")";
    "service MessageOfTheDay {";
    "   version: ""2020-06-21""";
    "   resources: [";
    "      Message";
    "   ]";
    "}";
    "";
    "structure GetMessageInput {";
    "   date: example.motd#Date";
    "}";
    "";
    "@error(""client"")";
    "structure BadDateValue {";
    "   @required";
    "   errorMessage: String";
    "}";
    ""]%string)
  = Ok [(lit "operation::example.motd#GetMessage");
        (lit "operation::example.motd#GetMessage::error=>example.motd#BadDateValue");
        (lit "operation::example.motd#GetMessage::input=>example.motd#GetMessageInput");
        (lit "operation::example.motd#GetMessage::output=>example.motd#GetMessageInput");
        (lit "operation::example.motd#GetMessage::trait::smithy.api#readonly<={}");
        (lit "resource::example.motd#Message");
        (lit "resource::example.motd#Message::identifier::date=>example.motd#Date");
        (lit "resource::example.motd#Message::read=>example.motd#GetMessage");
        (lit "service::example.motd#MessageOfTheDay");
        (lit "service::example.motd#MessageOfTheDay::resource=>example.motd#Message");
        (lit "service::example.motd#MessageOfTheDay::trait::smithy.api#documentation<=""Provides a Message of the day.""");
        (lit "service::example.motd#MessageOfTheDay::version<=""2020-06-21""");
        (lit "string::example.motd#Date");
        (lit "string::example.motd#Date::trait::smithy.api#pattern<=""^\\d\\d\\d\\d\\-\\d\\d\\-\\d\\d$""");
        (lit "structure::example.motd#BadDateValue");
        (lit "structure::example.motd#BadDateValue::errorMessage::trait::smithy.api#required<={}");
        (lit "structure::example.motd#BadDateValue::errorMessage=>smithy.api#String");
        (lit "structure::example.motd#BadDateValue::trait::smithy.api#error<=""client""");
        (lit "structure::example.motd#GetMessageInput");
        (lit "structure::example.motd#GetMessageInput::date=>example.motd#Date");
        (lit "structure::example.motd#GetMessageOutput");
        (lit "structure::example.motd#GetMessageOutput::message::trait::smithy.api#required<={}");
        (lit "structure::example.motd#GetMessageOutput::message=>smithy.api#String")].
Proof. vm_compute. reflexivity. Qed.

(** atelier-smithy/tests/good/smithy-api-mqtt.smithy *)
Example smithy_api_mqtt :
  lines_read (text ["$version: ""1.0""";
    "";
    "namespace smithy.mqtt";
    "";
    "@trait(selector: ""service"")";
    "@protocolDefinition";
    "structure mqttJson {}";
    "";
    "@trait(selector: ""operation:not(-[output]->)"",";
    "       conflicts: [""smithy.mqtt#subscribe""])";
    "@tags([""diff.error.const""])";
    "// Matches one or more characters that are not ""#"" or ""+"".";
    "@pattern(""^[^#+]+$"")";
    "string publish";
    "";
    "@trait(selector: ""operation:test(-[output]-> structure > member > union[trait|streaming])"",";
    "       conflicts: [""smithy.mqtt#publish""])";
    "@tags([""diff.error.const""])";
    "// Matches one or more characters that are not ""#"" or ""+"".";
    "@pattern(""^[^#+]+$"")";
    "string subscribe";
    "";
    "@trait(selector: ""member[trait|required] :test(> :test(string, byte, short, integer, long, boolean, timestamp))"")";
    "structure topicLabel {}"]%string)
  = Ok [(lit "string::smithy.mqtt#publish");
        (lit "string::smithy.mqtt#publish::trait::smithy.api#pattern<=""^[^#+]+$""");
        (lit "string::smithy.mqtt#publish::trait::smithy.api#tags<=[0]=""diff.error.const""");
        (lit "string::smithy.mqtt#publish::trait::smithy.api#trait<={conflicts}=[0]=""smithy.mqtt#subscribe""");
        (lit "string::smithy.mqtt#publish::trait::smithy.api#trait<={selector}=""operation:not(-[output]->)""");
        (lit "string::smithy.mqtt#subscribe");
        (lit "string::smithy.mqtt#subscribe::trait::smithy.api#pattern<=""^[^#+]+$""");
        (lit "string::smithy.mqtt#subscribe::trait::smithy.api#tags<=[0]=""diff.error.const""");
        (lit "string::smithy.mqtt#subscribe::trait::smithy.api#trait<={conflicts}=[0]=""smithy.mqtt#publish""");
        (lit "string::smithy.mqtt#subscribe::trait::smithy.api#trait<={selector}=""operation:test(-[output]-> structure > member > union[trait|streaming])""");
        (lit "structure::smithy.mqtt#mqttJson");
        (lit "structure::smithy.mqtt#mqttJson::trait::smithy.api#protocolDefinition<={}");
        (lit "structure::smithy.mqtt#mqttJson::trait::smithy.api#trait<={selector}=""service""");
        (lit "structure::smithy.mqtt#topicLabel");
        (lit "structure::smithy.mqtt#topicLabel::trait::smithy.api#trait<={selector}=""member[trait|required] :test(> :test(string, byte, short, integer, long, boolean, timestamp))""")].
Proof. vm_compute. reflexivity. Qed.

(** atelier-smithy/tests/good/waiters.smithy *)
Example waiters :
  lines_read (text ["namespace smithy.waiters";
    "";
    "/// Indicates that an operation has various named ""waiters"" that can be used";
    "/// to poll a resource until it enters a desired state.";
    "@trait(selector: ""operation :not(-[input, output]-> structure > member > union[trait|streaming])"")";
    "@length(min: 1)";
    "map waitable {";
    "    key: WaiterName,";
    "    value: Waiter,";
    "}";
    "";
    "@pattern(""^[A-Z]+[A-Za-z0-9]*$"")";
    "string WaiterName";
    "";
    "/// Defines an individual operation waiter.";
    "@private";
    "structure Waiter {";
    "    /// Documentation about the waiter. Can use CommonMark.";
    "    documentation: String,";
    "";
    "    /// An ordered array of acceptors to check after executing an operation.";
    "    @required";
    "    acceptors: Acceptors,";
    "";
    "    /// The minimum amount of time in seconds to delay between each retry.";
    "    /// This value defaults to 2 if not specified. If specified, this value";
    "    /// MUST be greater than or equal to 1 and less than or equal to";
    "    /// `maxDelay`.";
    "    minDelay: WaiterDelay,";
    "";
    "    /// The maximum amount of time in seconds to delay between each retry.";
    "    /// This value defaults to 120 if not specified (or, 2 minutes). If";
    "    /// specified, this value MUST be greater than or equal to 1.";
    "    maxDelay: WaiterDelay,";
    "";
    "    /// Indicates if the waiter is considered deprecated. A waiter SHOULD";
    "    /// be marked as deprecated if it has been replaced by another waiter or";
    "    /// if it is no longer needed (for example, if a resource changes from";
    "    /// eventually consistent to strongly consistent).";
    "    deprecated: PrimitiveBoolean,";
    "";
    "    /// A list of tags associated with the waiter that allow waiters to be";
    "    /// categorized and grouped.";
    "    tags: NonEmptyStringList,";
    "}";
    "";
    "@box";
    "@range(min: 1)";
    "integer WaiterDelay";
    "";
    "@private";
    "@length(min: 1)";
    "list Acceptors {";
    "    member: Acceptor";
    "}";
    "";
    "/// Represents an acceptor in a waiter's state machine.";
    "@private";
    "structure Acceptor {";
    "    /// The state the acceptor transitions to when matched.";
    "    @required";
    "    state: AcceptorState,";
    "";
    "    /// The matcher used to test if the resource is in a given state.";
    "    @required";
    "    matcher: Matcher,";
    "}";
    "";
    "/// The transition state of a waiter.";
    "@private";
    "@enum([";
    "    {";
    "        ""name"": ""SUCCESS"",";
    "        ""value"": ""success"",";
    "        ""documentation"": """"""";
    "                The waiter successfully finished waiting. This is a terminal";
    "                state that causes the waiter to stop.""""""";
    "    },";
    "    {";
    "        ""name"": ""FAILURE"",";
    "        ""value"": ""failure"",";
    "        ""documentation"": """"""";
    "                The waiter failed to enter into the desired state. This is a";
    "                terminal state that causes the waiter to stop.""""""";
    "    },";
    "    {";
    "        ""name"": ""RETRY"",";
    "        ""value"": ""retry"",";
    "        ""documentation"": """"""";
    "                The waiter will retry the operation. This state transition is";
    "                implicit if no accepter causes a state transition.""""""";
    "    },";
    "])";
    "string AcceptorState";
    "";
    "/// Defines how an acceptor determines if it matches the current state of";
    "/// a resource.";
    "@private";
    "union Matcher {";
    "    /// Matches on the successful output of an operation using a";
    "    /// JMESPath expression.";
    "    output: PathMatcher,";
    "";
    "    /// Matches on both the input and output of an operation using a JMESPath";
    "    /// expression. Input parameters are available through the top-level";
    "    /// `input` field, and output data is available through the top-level";
    "    /// `output` field. This matcher can only be used on operations that";
    "    /// define both input and output. This matcher is checked only if an";
    "    /// operation completes successfully.";
    "    inputOutput: PathMatcher,";
    "";
    "    /// Matches if an operation returns an error and the error matches";
    "    /// the expected error type. If an absolute shape ID is provided, the";
    "    /// error is matched exactly on the shape ID. A shape name can be";
    "    /// provided to match an error in any namespace with the given name.";
    "    errorType: String,";
    "";
    "    /// When set to `true`, matches when an operation returns a successful";
    "    /// response. When set to `false`, matches when an operation fails with";
    "    /// any error.";
    "    success: Boolean,";
    "}";
    "";
    "/// Defines how to test the result of a JMESPath expression against";
    "/// an expected value.";
    "@private";
    "structure PathMatcher {";
    "    /// A JMESPath expression applied to the input or output of an operation.";
    "    @required";
    "    path: String,";
    "";
    "    /// The expected return value of the expression.";
    "    @required";
    "    expected: String,";
    "";
    "    /// The comparator used to compare the result of the expression with the";
    "    /// expected value.";
    "    @required";
    "    comparator: PathComparator,";
    "}";
    "";
    "/// Defines a comparison to perform in a PathMatcher.";
    "@enum([";
    "    {";
    "        ""name"": ""STRING_EQUALS"",";
    "        ""value"": ""stringEquals"",";
    "        ""documentation"": ""Matches if the return value is a string that is equal to the expected string.""";
    "    },";
    "    {";
    "        ""name"": ""BOOLEAN_EQUALS"",";
    "        ""value"": ""booleanEquals"",";
    "        ""documentation"": ""Matches if the return value is a boolean that is equal to the string literal 'true' or 'false'.""";
    "    },";
    "    {";
    "        ""name"": ""ALL_STRING_EQUALS"",";
    "        ""value"": ""allStringEquals"",";
    "        ""documentation"": ""Matches if all values in the list matches the expected string.""";
    "    },";
    "    {";
    "        ""name"": ""ANY_STRING_EQUALS"",";
    "        ""value"": ""anyStringEquals"",";
    "        ""documentation"": ""Matches if any value in the list matches the expected string.""";
    "    }";
    "])";
    "@private";
    "string PathComparator";
    "";
    "@private";
    "list NonEmptyStringList {";
    "    member: NonEmptyString,";
    "}";
    "";
    "@private";
    "@length(min: 1)";
    "string NonEmptyString"]%string)
  = Ok [(lit "integer::smithy.waiters#WaiterDelay");
        (lit "integer::smithy.waiters#WaiterDelay::trait::smithy.api#box<={}");
        (lit "integer::smithy.waiters#WaiterDelay::trait::smithy.api#range<={min}=1");
        (lit "list::smithy.waiters#Acceptors");
        (lit "list::smithy.waiters#Acceptors::member=>smithy.waiters#Acceptor");
        (lit "list::smithy.waiters#Acceptors::trait::smithy.api#length<={min}=1");
        (lit "list::smithy.waiters#Acceptors::trait::smithy.api#private<={}");
        (lit "list::smithy.waiters#NonEmptyStringList");
        (lit "list::smithy.waiters#NonEmptyStringList::member=>smithy.waiters#NonEmptyString");
        (lit "list::smithy.waiters#NonEmptyStringList::trait::smithy.api#private<={}");
        (lit "map::smithy.waiters#waitable");
        (lit "map::smithy.waiters#waitable::key=>smithy.waiters#WaiterName");
        (text ["map::smithy.waiters#waitable::trait::smithy.api#documentation<=""Indicates that an operation has various named ""waiters"" that can be used";
    "to poll a resource until it enters a desired state."""]%string);
        (lit "map::smithy.waiters#waitable::trait::smithy.api#length<={min}=1");
        (lit "map::smithy.waiters#waitable::trait::smithy.api#trait<={selector}=""operation :not(-[input, output]-> structure > member > union[trait|streaming])""");
        (lit "map::smithy.waiters#waitable::value=>smithy.waiters#Waiter");
        (lit "string::smithy.waiters#AcceptorState");
        (lit "string::smithy.waiters#AcceptorState::trait::smithy.api#documentation<=""The transition state of a waiter.""");
        (text ["string::smithy.waiters#AcceptorState::trait::smithy.api#enum<=[0]={""documentation""}=""The waiter successfully finished waiting. This is a terminal";
    "                state that causes the waiter to stop."""]%string);
        (lit "string::smithy.waiters#AcceptorState::trait::smithy.api#enum<=[0]={""name""}=""SUCCESS""");
        (lit "string::smithy.waiters#AcceptorState::trait::smithy.api#enum<=[0]={""value""}=""success""");
        (text ["string::smithy.waiters#AcceptorState::trait::smithy.api#enum<=[1]={""documentation""}=""The waiter failed to enter into the desired state. This is a";
    "                terminal state that causes the waiter to stop."""]%string);
        (lit "string::smithy.waiters#AcceptorState::trait::smithy.api#enum<=[1]={""name""}=""FAILURE""");
        (lit "string::smithy.waiters#AcceptorState::trait::smithy.api#enum<=[1]={""value""}=""failure""");
        (text ["string::smithy.waiters#AcceptorState::trait::smithy.api#enum<=[2]={""documentation""}=""The waiter will retry the operation. This state transition is";
    "                implicit if no accepter causes a state transition."""]%string);
        (lit "string::smithy.waiters#AcceptorState::trait::smithy.api#enum<=[2]={""name""}=""RETRY""");
        (lit "string::smithy.waiters#AcceptorState::trait::smithy.api#enum<=[2]={""value""}=""retry""");
        (lit "string::smithy.waiters#AcceptorState::trait::smithy.api#private<={}");
        (lit "string::smithy.waiters#NonEmptyString");
        (lit "string::smithy.waiters#NonEmptyString::trait::smithy.api#length<={min}=1");
        (lit "string::smithy.waiters#NonEmptyString::trait::smithy.api#private<={}");
        (lit "string::smithy.waiters#PathComparator");
        (lit "string::smithy.waiters#PathComparator::trait::smithy.api#documentation<=""Defines a comparison to perform in a PathMatcher.""");
        (lit "string::smithy.waiters#PathComparator::trait::smithy.api#enum<=[0]={""documentation""}=""Matches if the return value is a string that is equal to the expected string.""");
        (lit "string::smithy.waiters#PathComparator::trait::smithy.api#enum<=[0]={""name""}=""STRING_EQUALS""");
        (lit "string::smithy.waiters#PathComparator::trait::smithy.api#enum<=[0]={""value""}=""stringEquals""");
        (lit "string::smithy.waiters#PathComparator::trait::smithy.api#enum<=[1]={""documentation""}=""Matches if the return value is a boolean that is equal to the string literal 'true' or 'false'.""");
        (lit "string::smithy.waiters#PathComparator::trait::smithy.api#enum<=[1]={""name""}=""BOOLEAN_EQUALS""");
        (lit "string::smithy.waiters#PathComparator::trait::smithy.api#enum<=[1]={""value""}=""booleanEquals""");
        (lit "string::smithy.waiters#PathComparator::trait::smithy.api#enum<=[2]={""documentation""}=""Matches if all values in the list matches the expected string.""");
        (lit "string::smithy.waiters#PathComparator::trait::smithy.api#enum<=[2]={""name""}=""ALL_STRING_EQUALS""");
        (lit "string::smithy.waiters#PathComparator::trait::smithy.api#enum<=[2]={""value""}=""allStringEquals""");
        (lit "string::smithy.waiters#PathComparator::trait::smithy.api#enum<=[3]={""documentation""}=""Matches if any value in the list matches the expected string.""");
        (lit "string::smithy.waiters#PathComparator::trait::smithy.api#enum<=[3]={""name""}=""ANY_STRING_EQUALS""");
        (lit "string::smithy.waiters#PathComparator::trait::smithy.api#enum<=[3]={""value""}=""anyStringEquals""");
        (lit "string::smithy.waiters#PathComparator::trait::smithy.api#private<={}");
        (lit "string::smithy.waiters#WaiterName");
        (lit "string::smithy.waiters#WaiterName::trait::smithy.api#pattern<=""^[A-Z]+[A-Za-z0-9]*$""");
        (lit "structure::smithy.waiters#Acceptor");
        (lit "structure::smithy.waiters#Acceptor::matcher::trait::smithy.api#documentation<=""The matcher used to test if the resource is in a given state.""");
        (lit "structure::smithy.waiters#Acceptor::matcher::trait::smithy.api#required<={}");
        (lit "structure::smithy.waiters#Acceptor::matcher=>smithy.waiters#Matcher");
        (lit "structure::smithy.waiters#Acceptor::state::trait::smithy.api#documentation<=""The state the acceptor transitions to when matched.""");
        (lit "structure::smithy.waiters#Acceptor::state::trait::smithy.api#required<={}");
        (lit "structure::smithy.waiters#Acceptor::state=>smithy.waiters#AcceptorState");
        (lit "structure::smithy.waiters#Acceptor::trait::smithy.api#documentation<=""Represents an acceptor in a waiter's state machine.""");
        (lit "structure::smithy.waiters#Acceptor::trait::smithy.api#private<={}");
        (lit "structure::smithy.waiters#PathMatcher");
        (text ["structure::smithy.waiters#PathMatcher::comparator::trait::smithy.api#documentation<=""The comparator used to compare the result of the expression with the";
    "expected value."""]%string);
        (lit "structure::smithy.waiters#PathMatcher::comparator::trait::smithy.api#required<={}");
        (lit "structure::smithy.waiters#PathMatcher::comparator=>smithy.waiters#PathComparator");
        (lit "structure::smithy.waiters#PathMatcher::expected::trait::smithy.api#documentation<=""The expected return value of the expression.""");
        (lit "structure::smithy.waiters#PathMatcher::expected::trait::smithy.api#required<={}");
        (lit "structure::smithy.waiters#PathMatcher::expected=>smithy.api#String");
        (lit "structure::smithy.waiters#PathMatcher::path::trait::smithy.api#documentation<=""A JMESPath expression applied to the input or output of an operation.""");
        (lit "structure::smithy.waiters#PathMatcher::path::trait::smithy.api#required<={}");
        (lit "structure::smithy.waiters#PathMatcher::path=>smithy.api#String");
        (text ["structure::smithy.waiters#PathMatcher::trait::smithy.api#documentation<=""Defines how to test the result of a JMESPath expression against";
    "an expected value."""]%string);
        (lit "structure::smithy.waiters#PathMatcher::trait::smithy.api#private<={}");
        (lit "structure::smithy.waiters#Waiter");
        (lit "structure::smithy.waiters#Waiter::acceptors::trait::smithy.api#documentation<=""An ordered array of acceptors to check after executing an operation.""");
        (lit "structure::smithy.waiters#Waiter::acceptors::trait::smithy.api#required<={}");
        (lit "structure::smithy.waiters#Waiter::acceptors=>smithy.waiters#Acceptors");
        (text ["structure::smithy.waiters#Waiter::deprecated::trait::smithy.api#documentation<=""Indicates if the waiter is considered deprecated. A waiter SHOULD";
    "be marked as deprecated if it has been replaced by another waiter or";
    "if it is no longer needed (for example, if a resource changes from";
    "eventually consistent to strongly consistent)."""]%string);
        (lit "structure::smithy.waiters#Waiter::deprecated=>smithy.api#PrimitiveBoolean");
        (lit "structure::smithy.waiters#Waiter::documentation::trait::smithy.api#documentation<=""Documentation about the waiter. Can use CommonMark.""");
        (lit "structure::smithy.waiters#Waiter::documentation=>smithy.api#String");
        (text ["structure::smithy.waiters#Waiter::maxDelay::trait::smithy.api#documentation<=""The maximum amount of time in seconds to delay between each retry.";
    "This value defaults to 120 if not specified (or, 2 minutes). If";
    "specified, this value MUST be greater than or equal to 1."""]%string);
        (lit "structure::smithy.waiters#Waiter::maxDelay=>smithy.waiters#WaiterDelay");
        (text ["structure::smithy.waiters#Waiter::minDelay::trait::smithy.api#documentation<=""The minimum amount of time in seconds to delay between each retry.";
    "This value defaults to 2 if not specified. If specified, this value";
    "MUST be greater than or equal to 1 and less than or equal to";
    "`maxDelay`."""]%string);
        (lit "structure::smithy.waiters#Waiter::minDelay=>smithy.waiters#WaiterDelay");
        (text ["structure::smithy.waiters#Waiter::tags::trait::smithy.api#documentation<=""A list of tags associated with the waiter that allow waiters to be";
    "categorized and grouped."""]%string);
        (lit "structure::smithy.waiters#Waiter::tags=>smithy.waiters#NonEmptyStringList");
        (lit "structure::smithy.waiters#Waiter::trait::smithy.api#documentation<=""Defines an individual operation waiter.""");
        (lit "structure::smithy.waiters#Waiter::trait::smithy.api#private<={}");
        (lit "union::smithy.waiters#Matcher");
        (text ["union::smithy.waiters#Matcher::errorType::trait::smithy.api#documentation<=""Matches if an operation returns an error and the error matches";
    "the expected error type. If an absolute shape ID is provided, the";
    "error is matched exactly on the shape ID. A shape name can be";
    "provided to match an error in any namespace with the given name."""]%string);
        (lit "union::smithy.waiters#Matcher::errorType=>smithy.api#String");
        (text ["union::smithy.waiters#Matcher::inputOutput::trait::smithy.api#documentation<=""Matches on both the input and output of an operation using a JMESPath";
    "expression. Input parameters are available through the top-level";
    "`input` field, and output data is available through the top-level";
    "`output` field. This matcher can only be used on operations that";
    "define both input and output. This matcher is checked only if an";
    "operation completes successfully."""]%string);
        (lit "union::smithy.waiters#Matcher::inputOutput=>smithy.waiters#PathMatcher");
        (text ["union::smithy.waiters#Matcher::output::trait::smithy.api#documentation<=""Matches on the successful output of an operation using a";
    "JMESPath expression."""]%string);
        (lit "union::smithy.waiters#Matcher::output=>smithy.waiters#PathMatcher");
        (text ["union::smithy.waiters#Matcher::success::trait::smithy.api#documentation<=""When set to `true`, matches when an operation returns a successful";
    "response. When set to `false`, matches when an operation fails with";
    "any error."""]%string);
        (lit "union::smithy.waiters#Matcher::success=>smithy.api#Boolean");
        (text ["union::smithy.waiters#Matcher::trait::smithy.api#documentation<=""Defines how an acceptor determines if it matches the current state of";
    "a resource."""]%string);
        (lit "union::smithy.waiters#Matcher::trait::smithy.api#private<={}")].
Proof. vm_compute. reflexivity. Qed.

(** atelier-smithy/tests/good/weather.smithy *)
Example weather :
  lines_read (text ["namespace example.weather";
    "";
    "/// Provides weather forecasts.";
    "@paginated(inputToken: ""nextToken"", outputToken: ""nextToken"",";
    "           pageSize: ""pageSize"")";
    "service Weather {";
    "    version: ""2006-03-01""";
    "    resources: [City]";
    "    operations: [GetCurrentTime]";
    "}";
    "";
    "resource City {";
    "    identifiers: { cityId: CityId },";
    "    read: GetCity";
    "    list: ListCities";
    "    resources: [Forecast]";
    "}";
    "";
    "resource Forecast {";
    "    identifiers: { cityId: CityId }";
    "    read: GetForecast";
    "}";
    "";
    "// ""pattern"" is a trait.";
    "@pattern(""^[A-Za-z0-9 ]+$"")";
    "string CityId";
    "";
    "@readonly";
    "operation GetCity {";
    "    input: GetCityInput";
    "    output: GetCityOutput";
    "    errors: [NoSuchResource]";
    "}";
    "";
    "structure GetCityInput {";
    "    // ""cityId"" provides the identifier for the resource and";
    "    // has to be marked as required.";
    "    @required";
    "    cityId: CityId";
    "}";
    "";
    "structure GetCityOutput {";
    "    // ""required"" is used on output to indicate if the service";
    "    // will always provide a value for the member.";
    "    @required";
    "    name: String";
    "";
    "    @required";
    "    coordinates: CityCoordinates";
    "}";
    "";
    "// This structure is nested within GetCityOutput.";
    "structure CityCoordinates {";
    "    @required";
    "    latitude: Float";
    "";
    "    @required";
    "    longitude: Float";
    "}";
    "";
    "// ""error"" is a trait that is used to specialize";
    "// a structure as an error.";
    "@error(""client"")";
    "structure NoSuchResource {";
    "    @required";
    "    resourceType: String";
    "}";
    "";
    "// The paginated trait indicates that the operation may";
    "// return truncated results.";
    "@readonly";
    "@paginated(items: ""items"")";
    "operation ListCities {";
    "    input: ListCitiesInput";
    "    output: ListCitiesOutput";
    "}";
    "";
    "structure ListCitiesInput {";
    "    nextToken: String";
    "    pageSize: Integer";
    "}";
    "";
    "structure ListCitiesOutput {";
    "    nextToken: String";
    "";
    "    @required";
    "    items: CitySummaries";
    "}";
    "";
    "// CitySummaries is a list of CitySummary structures.";
    "list CitySummaries {";
    "    member: CitySummary";
    "}";
    "";
    "// CitySummary contains a reference to a City.";
    "@references([{resource: City}])";
    "structure CitySummary {";
    "    @required";
    "    cityId: CityId";
    "";
    "    @required";
    "    name: String";
    "}";
    "";
    "@readonly";
    "operation GetCurrentTime {";
    "    output: GetCurrentTimeOutput";
    "}";
    "";
    "structure GetCurrentTimeOutput {";
    "    @required";
    "    time: Timestamp";
    "}";
    "";
    "@readonly";
    "operation GetForecast {";
    "    input: GetForecastInput";
    "    output: GetForecastOutput";
    "}";
    "";
    "// ""cityId"" provides the only identifier for the resource since";
    "// a Forecast doesn't have its own.";
    "structure GetForecastInput {";
    "    @required";
    "    cityId: CityId";
    "}";
    "";
    "structure GetForecastOutput {";
    "    chanceOfRain: Float";
    "}"]%string)
  = Ok [(lit "list::example.weather#CitySummaries");
        (lit "list::example.weather#CitySummaries::member=>example.weather#CitySummary");
        (lit "operation::example.weather#GetCity");
        (lit "operation::example.weather#GetCity::error=>example.weather#NoSuchResource");
        (lit "operation::example.weather#GetCity::input=>example.weather#GetCityInput");
        (lit "operation::example.weather#GetCity::output=>example.weather#GetCityOutput");
        (lit "operation::example.weather#GetCity::trait::smithy.api#readonly<={}");
        (lit "operation::example.weather#GetCurrentTime");
        (lit "operation::example.weather#GetCurrentTime::output=>example.weather#GetCurrentTimeOutput");
        (lit "operation::example.weather#GetCurrentTime::trait::smithy.api#readonly<={}");
        (lit "operation::example.weather#GetForecast");
        (lit "operation::example.weather#GetForecast::input=>example.weather#GetForecastInput");
        (lit "operation::example.weather#GetForecast::output=>example.weather#GetForecastOutput");
        (lit "operation::example.weather#GetForecast::trait::smithy.api#readonly<={}");
        (lit "operation::example.weather#ListCities");
        (lit "operation::example.weather#ListCities::input=>example.weather#ListCitiesInput");
        (lit "operation::example.weather#ListCities::output=>example.weather#ListCitiesOutput");
        (lit "operation::example.weather#ListCities::trait::smithy.api#paginated<={items}=""items""");
        (lit "operation::example.weather#ListCities::trait::smithy.api#readonly<={}");
        (lit "resource::example.weather#City");
        (lit "resource::example.weather#City::identifier::cityId=>example.weather#CityId");
        (lit "resource::example.weather#City::list=>example.weather#ListCities");
        (lit "resource::example.weather#City::read=>example.weather#GetCity");
        (lit "resource::example.weather#City::resource=>example.weather#Forecast");
        (lit "resource::example.weather#Forecast");
        (lit "resource::example.weather#Forecast::identifier::cityId=>example.weather#CityId");
        (lit "resource::example.weather#Forecast::read=>example.weather#GetForecast");
        (lit "service::example.weather#Weather");
        (lit "service::example.weather#Weather::operation=>example.weather#GetCurrentTime");
        (lit "service::example.weather#Weather::resource=>example.weather#City");
        (lit "service::example.weather#Weather::trait::smithy.api#documentation<=""Provides weather forecasts.""");
        (lit "service::example.weather#Weather::trait::smithy.api#paginated<={inputToken}=""nextToken""");
        (lit "service::example.weather#Weather::trait::smithy.api#paginated<={outputToken}=""nextToken""");
        (lit "service::example.weather#Weather::trait::smithy.api#paginated<={pageSize}=""pageSize""");
        (lit "service::example.weather#Weather::version<=""2006-03-01""");
        (lit "string::example.weather#CityId");
        (lit "string::example.weather#CityId::trait::smithy.api#pattern<=""^[A-Za-z0-9 ]+$""");
        (lit "structure::example.weather#CityCoordinates");
        (lit "structure::example.weather#CityCoordinates::latitude::trait::smithy.api#required<={}");
        (lit "structure::example.weather#CityCoordinates::latitude=>smithy.api#Float");
        (lit "structure::example.weather#CityCoordinates::longitude::trait::smithy.api#required<={}");
        (lit "structure::example.weather#CityCoordinates::longitude=>smithy.api#Float");
        (lit "structure::example.weather#CitySummary");
        (lit "structure::example.weather#CitySummary::cityId::trait::smithy.api#required<={}");
        (lit "structure::example.weather#CitySummary::cityId=>example.weather#CityId");
        (lit "structure::example.weather#CitySummary::name::trait::smithy.api#required<={}");
        (lit "structure::example.weather#CitySummary::name=>smithy.api#String");
        (lit "structure::example.weather#CitySummary::trait::smithy.api#references<=[0]={resource}=""City""");
        (lit "structure::example.weather#GetCityInput");
        (lit "structure::example.weather#GetCityInput::cityId::trait::smithy.api#required<={}");
        (lit "structure::example.weather#GetCityInput::cityId=>example.weather#CityId");
        (lit "structure::example.weather#GetCityOutput");
        (lit "structure::example.weather#GetCityOutput::coordinates::trait::smithy.api#required<={}");
        (lit "structure::example.weather#GetCityOutput::coordinates=>example.weather#CityCoordinates");
        (lit "structure::example.weather#GetCityOutput::name::trait::smithy.api#required<={}");
        (lit "structure::example.weather#GetCityOutput::name=>smithy.api#String");
        (lit "structure::example.weather#GetCurrentTimeOutput");
        (lit "structure::example.weather#GetCurrentTimeOutput::time::trait::smithy.api#required<={}");
        (lit "structure::example.weather#GetCurrentTimeOutput::time=>smithy.api#Timestamp");
        (lit "structure::example.weather#GetForecastInput");
        (lit "structure::example.weather#GetForecastInput::cityId::trait::smithy.api#required<={}");
        (lit "structure::example.weather#GetForecastInput::cityId=>example.weather#CityId");
        (lit "structure::example.weather#GetForecastOutput");
        (lit "structure::example.weather#GetForecastOutput::chanceOfRain=>smithy.api#Float");
        (lit "structure::example.weather#ListCitiesInput");
        (lit "structure::example.weather#ListCitiesInput::nextToken=>smithy.api#String");
        (lit "structure::example.weather#ListCitiesInput::pageSize=>smithy.api#Integer");
        (lit "structure::example.weather#ListCitiesOutput");
        (lit "structure::example.weather#ListCitiesOutput::items::trait::smithy.api#required<={}");
        (lit "structure::example.weather#ListCitiesOutput::items=>example.weather#CitySummaries");
        (lit "structure::example.weather#ListCitiesOutput::nextToken=>smithy.api#String");
        (lit "structure::example.weather#NoSuchResource");
        (lit "structure::example.weather#NoSuchResource::resourceType::trait::smithy.api#required<={}");
        (lit "structure::example.weather#NoSuchResource::resourceType=>smithy.api#String");
        (lit "structure::example.weather#NoSuchResource::trait::smithy.api#error<=""client""")].
Proof. vm_compute. reflexivity. Qed.

(** atelier-smithy/tests/smithy_simple_parse_tests.rs: namespace_only *)
Example namespace_only :
  lines_read (lit "namespace smithy.waiters")
  = Ok [].
Proof. vm_compute. reflexivity. Qed.

(** atelier-smithy/tests/smithy_simple_parse_tests.rs: simple_shape_only *)
Example simple_shape_only :
  lines_read (text ["namespace smithy.waiters";
    "        ";
    "        integer WaiterDelay"]%string)
  = Ok [(lit "integer::smithy.waiters#WaiterDelay")].
Proof. vm_compute. reflexivity. Qed.

(** atelier-smithy/tests/smithy_simple_parse_tests.rs: simple_shape_with_block_text *)
Example simple_shape_with_block_text :
  lines_read (text ["namespace example.foo";
    "        @documentation(""""""";
    "            A wait time for ""foo"" to happen";
    "        """""")";
    "        integer FooDelay"]%string)
  = Ok [(lit "integer::example.foo#FooDelay");
        (text ["integer::example.foo#FooDelay::trait::smithy.api#documentation<=""A wait time for ""foo"" to happen";
    "        """]%string)].
Proof. vm_compute. reflexivity. Qed.

(** atelier-smithy/tests/smithy_simple_parse_tests.rs: simple_shape_with_block_text_2 *)
Example simple_shape_with_block_text_2 :
  lines_read (text ["namespace example.foo";
    "        @documentation(""""""Do empty """" quotes work too?"""""")";
    "        integer FooDelay"]%string)
  = Ok [(lit "integer::example.foo#FooDelay");
        (lit "integer::example.foo#FooDelay::trait::smithy.api#documentation<=""Do empty """" quotes work too?""")].
Proof. vm_compute. reflexivity. Qed.

(** atelier-smithy/tests/smithy_simple_parse_tests.rs: simple_shape_with_traits *)
Example simple_shape_with_traits :
  lines_read (text ["namespace smithy.waiters";
    "        ";
    "        @box";
    "        @range(min: 1)";
    "        integer WaiterDelay"]%string)
  = Ok [(lit "integer::smithy.waiters#WaiterDelay");
        (lit "integer::smithy.waiters#WaiterDelay::trait::smithy.api#box<={}");
        (lit "integer::smithy.waiters#WaiterDelay::trait::smithy.api#range<={min}=1")].
Proof. vm_compute. reflexivity. Qed.

(** atelier-smithy/tests/smithy_simple_parse_tests.rs: simple_shape_with_traits_and_comments *)
Example simple_shape_with_traits_and_comments :
  lines_read (text ["// start of the file";
    "        namespace smithy.waiters // this namespace is added to all shape names";
    "        ";
    "        @box // it's a boxed, not atomic, value";
    "        @range(min: 1) // set the minimum value";
    "        integer WaiterDelay"]%string)
  = Ok [(lit "integer::smithy.waiters#WaiterDelay");
        (lit "integer::smithy.waiters#WaiterDelay::trait::smithy.api#box<={}");
        (lit "integer::smithy.waiters#WaiterDelay::trait::smithy.api#range<={min}=1")].
Proof. vm_compute. reflexivity. Qed.

(** atelier-smithy/tests/smithy_simple_parse_tests.rs: simple_shape_with_traits_and_documentation *)
Example simple_shape_with_traits_and_documentation :
  lines_read (text ["namespace smithy.waiters";
    "        ";
    "        /// The name, or identifier, of a waiter.";
    "        @pattern(""^[A-Z]+[A-Za-z0-9]*$"")";
    "        string WaiterName"]%string)
  = Ok [(lit "string::smithy.waiters#WaiterName");
        (lit "string::smithy.waiters#WaiterName::trait::smithy.api#documentation<=""The name, or identifier, of a waiter.""");
        (lit "string::smithy.waiters#WaiterName::trait::smithy.api#pattern<=""^[A-Z]+[A-Za-z0-9]*$""")].
Proof. vm_compute. reflexivity. Qed.
