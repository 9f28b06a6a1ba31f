(** The directory of atelier-assembler/tests/assemble_resolver_cases.rs, with the lines expected of the model assembled from it.
    Written by tools/gen_fixtures.py. *)
From Verif.Model Require Import SmithyParse SmithyGrammar Peg SelectorParse Lines Assembler.
From Verif.Spec Require Import Witness.
Definition bytes (l : list N) : str := map ascii_of_N l.
Definition text (l : list string) : str := join [ascii_of_N 10] (map lit l).

Definition read_text (s : str) : result model :=
  match run smithy_grammar (12 * 1000) false (PCall I_idl) s with
  | Some (Some (pairs, _)) => x <- next pairs ;; @parse_idl (fun _ => 0%Z) zero_hasher (fst x)
  | _ => Panic
  end.
Definition shown (s : str) : str := dquote :: flat_map (fun c => if Ascii.eqb c dquote then [ascii_of_N 92; c] else [c]) s ++ [dquote].
Definition json_unused (s : str) : result model := Panic.
Definition assembled (root : node) (paths : list path) : result (list str) :=
  m <- @assemble zero_hasher (reg_default json_unused read_text) root paths ;; Ok (make_line_oriented_form (fun _ => []) shown m).
Definition resolver_cases : node :=
  NDir [(lit "animal.smithy", NFile (text ["$version: ""1.0""";
    "";
    "namespace earth.kingdom.animals";
    "";
    "@enum([";
    "    {";
    "        value: ""Agnatha"",";
    "        name: ""Agnatha"",";
    "    },";
    "    {";
    "        value: ""Chrondrichtyes"",";
    "        name: ""Chrondrichtyes"",";
    "    },";
    "    {";
    "        value: ""Osteichthyes"",";
    "        name: ""Osteichthyes"",";
    "    },";
    "    {";
    "        value: ""Amphibia"",";
    "        name: ""Amphibia"",";
    "    },";
    "    {";
    "        value: ""Reptilia"",";
    "        name: ""Reptilia"",";
    "    },";
    "    {";
    "        value: ""Aves"",";
    "        name: ""Aves"",";
    "    },";
    "    {";
    "        value: ""Mammalia"",";
    "        name: ""Mammalia"",";
    "    }";
    "])";
    "string Class";
    "";
    ""]%string));
        (lit "dog-breeds.smithy", NFile (text ["$version: ""1.0""";
    "";
    "namespace earth.kingdom.animals.mammals.dogs";
    "";
    "@enum([";
    "    {";
    "        value: ""IrishSetter"",";
    "        name: ""Irish Setter"",";
    "    },";
    "    {";
    "        value: ""GreatDane"",";
    "        name: ""Great Dane"",";
    "    },";
    "    {";
    "        value: ""Vizsla"",";
    "        name: ""Vizsla"",";
    "    },";
    "    {";
    "        value: ""Poodle"",";
    "        name: ""Poodle"",";
    "    },";
    "])";
    "string Breed";
    ""]%string));
        (lit "dog-colors.smithy", NFile (text ["$version: ""1.0""";
    "";
    "namespace earth.kingdom.animals.mammals.dogs";
    "";
    "@enum([";
    "    {";
    "        value: ""Red"",";
    "        name: ""Red"",";
    "    },";
    "    {";
    "        value: ""Orange"",";
    "        name: ""Orange"",";
    "    },";
    "    {";
    "        value: ""Yellow"",";
    "        name: ""Yellow"",";
    "    },";
    "    {";
    "        value: ""Green"",";
    "        name: ""Green"",";
    "    },";
    "    {";
    "        value: ""Blue"",";
    "        name: ""Blue"",";
    "    },";
    "    {";
    "        value: ""Indigo"",";
    "        name: ""Indigo"",";
    "    },";
    "    {";
    "        value: ""Violet"",";
    "        name: ""Violet"",";
    "    }";
    "])";
    "string Color";
    ""]%string));
        (lit "dog.smithy", NFile (text ["$version: ""1.0""";
    "";
    "namespace earth.kingdom.animals.mammals.dogs";
    "";
    "use earth.kingdom.animals#Class";
    "";
    "structure Dog {";
    "    @required";
    "    @documentation(""animal classification (from earth.kingdom.animals#Class)"")";
    "    class: Class,";
    "";
    "    @required";
    "    @documentation(""the breed of this dog (from earth.kingdom.animals.mammals.dogs#Breed)"")";
    "    breed: Breed,";
    "";
    "    @required";
    "    @documentation(""the color of this dog (from earth.kingdom.animals.mammals.dogs#Color)"")";
    "    color: Color,";
    "}";
    ""]%string))].
Example shape_name_resolution :
  assembled (NDir [(lit "resolver_cases", resolver_cases)]) [[lit "resolver_cases"]]
  = Ok [(lit "string::earth.kingdom.animals#Class");
        (lit "string::earth.kingdom.animals#Class::trait::smithy.api#enum<=[0]={name}=""Agnatha""");
        (lit "string::earth.kingdom.animals#Class::trait::smithy.api#enum<=[0]={value}=""Agnatha""");
        (lit "string::earth.kingdom.animals#Class::trait::smithy.api#enum<=[1]={name}=""Chrondrichtyes""");
        (lit "string::earth.kingdom.animals#Class::trait::smithy.api#enum<=[1]={value}=""Chrondrichtyes""");
        (lit "string::earth.kingdom.animals#Class::trait::smithy.api#enum<=[2]={name}=""Osteichthyes""");
        (lit "string::earth.kingdom.animals#Class::trait::smithy.api#enum<=[2]={value}=""Osteichthyes""");
        (lit "string::earth.kingdom.animals#Class::trait::smithy.api#enum<=[3]={name}=""Amphibia""");
        (lit "string::earth.kingdom.animals#Class::trait::smithy.api#enum<=[3]={value}=""Amphibia""");
        (lit "string::earth.kingdom.animals#Class::trait::smithy.api#enum<=[4]={name}=""Reptilia""");
        (lit "string::earth.kingdom.animals#Class::trait::smithy.api#enum<=[4]={value}=""Reptilia""");
        (lit "string::earth.kingdom.animals#Class::trait::smithy.api#enum<=[5]={name}=""Aves""");
        (lit "string::earth.kingdom.animals#Class::trait::smithy.api#enum<=[5]={value}=""Aves""");
        (lit "string::earth.kingdom.animals#Class::trait::smithy.api#enum<=[6]={name}=""Mammalia""");
        (lit "string::earth.kingdom.animals#Class::trait::smithy.api#enum<=[6]={value}=""Mammalia""");
        (lit "string::earth.kingdom.animals.mammals.dogs#Breed");
        (lit "string::earth.kingdom.animals.mammals.dogs#Breed::trait::smithy.api#enum<=[0]={name}=""Irish Setter""");
        (lit "string::earth.kingdom.animals.mammals.dogs#Breed::trait::smithy.api#enum<=[0]={value}=""IrishSetter""");
        (lit "string::earth.kingdom.animals.mammals.dogs#Breed::trait::smithy.api#enum<=[1]={name}=""Great Dane""");
        (lit "string::earth.kingdom.animals.mammals.dogs#Breed::trait::smithy.api#enum<=[1]={value}=""GreatDane""");
        (lit "string::earth.kingdom.animals.mammals.dogs#Breed::trait::smithy.api#enum<=[2]={name}=""Vizsla""");
        (lit "string::earth.kingdom.animals.mammals.dogs#Breed::trait::smithy.api#enum<=[2]={value}=""Vizsla""");
        (lit "string::earth.kingdom.animals.mammals.dogs#Breed::trait::smithy.api#enum<=[3]={name}=""Poodle""");
        (lit "string::earth.kingdom.animals.mammals.dogs#Breed::trait::smithy.api#enum<=[3]={value}=""Poodle""");
        (lit "string::earth.kingdom.animals.mammals.dogs#Color");
        (lit "string::earth.kingdom.animals.mammals.dogs#Color::trait::smithy.api#enum<=[0]={name}=""Red""");
        (lit "string::earth.kingdom.animals.mammals.dogs#Color::trait::smithy.api#enum<=[0]={value}=""Red""");
        (lit "string::earth.kingdom.animals.mammals.dogs#Color::trait::smithy.api#enum<=[1]={name}=""Orange""");
        (lit "string::earth.kingdom.animals.mammals.dogs#Color::trait::smithy.api#enum<=[1]={value}=""Orange""");
        (lit "string::earth.kingdom.animals.mammals.dogs#Color::trait::smithy.api#enum<=[2]={name}=""Yellow""");
        (lit "string::earth.kingdom.animals.mammals.dogs#Color::trait::smithy.api#enum<=[2]={value}=""Yellow""");
        (lit "string::earth.kingdom.animals.mammals.dogs#Color::trait::smithy.api#enum<=[3]={name}=""Green""");
        (lit "string::earth.kingdom.animals.mammals.dogs#Color::trait::smithy.api#enum<=[3]={value}=""Green""");
        (lit "string::earth.kingdom.animals.mammals.dogs#Color::trait::smithy.api#enum<=[4]={name}=""Blue""");
        (lit "string::earth.kingdom.animals.mammals.dogs#Color::trait::smithy.api#enum<=[4]={value}=""Blue""");
        (lit "string::earth.kingdom.animals.mammals.dogs#Color::trait::smithy.api#enum<=[5]={name}=""Indigo""");
        (lit "string::earth.kingdom.animals.mammals.dogs#Color::trait::smithy.api#enum<=[5]={value}=""Indigo""");
        (lit "string::earth.kingdom.animals.mammals.dogs#Color::trait::smithy.api#enum<=[6]={name}=""Violet""");
        (lit "string::earth.kingdom.animals.mammals.dogs#Color::trait::smithy.api#enum<=[6]={value}=""Violet""");
        (lit "structure::earth.kingdom.animals.mammals.dogs#Dog");
        (lit "structure::earth.kingdom.animals.mammals.dogs#Dog::breed::trait::smithy.api#documentation<=""the breed of this dog (from earth.kingdom.animals.mammals.dogs#Breed)""");
        (lit "structure::earth.kingdom.animals.mammals.dogs#Dog::breed::trait::smithy.api#required<={}");
        (lit "structure::earth.kingdom.animals.mammals.dogs#Dog::breed=>earth.kingdom.animals.mammals.dogs#Breed");
        (lit "structure::earth.kingdom.animals.mammals.dogs#Dog::class::trait::smithy.api#documentation<=""animal classification (from earth.kingdom.animals#Class)""");
        (lit "structure::earth.kingdom.animals.mammals.dogs#Dog::class::trait::smithy.api#required<={}");
        (lit "structure::earth.kingdom.animals.mammals.dogs#Dog::class=>earth.kingdom.animals#Class");
        (lit "structure::earth.kingdom.animals.mammals.dogs#Dog::color::trait::smithy.api#documentation<=""the color of this dog (from earth.kingdom.animals.mammals.dogs#Color)""");
        (lit "structure::earth.kingdom.animals.mammals.dogs#Dog::color::trait::smithy.api#required<={}");
        (lit "structure::earth.kingdom.animals.mammals.dogs#Dog::color=>earth.kingdom.animals.mammals.dogs#Color")].
Proof. vm_compute. reflexivity. Qed.
