(** The JSON texts that the tests of atelier-json read, with what they expect.
    Written by tools/gen_fixtures.py. *)
From Verif.Model Require Import Json JsonText Lines.
From Verif.Spec Require Import Witness.
Definition bytes (l : list N) : str := map ascii_of_N l.
Definition text (l : list string) : str := join [ascii_of_N 10] (map lit l).

Definition shown (s : str) : str := dquote :: flat_map (fun c => if Ascii.eqb c dquote then [ascii_of_N 92; c] else [c]) s ++ [dquote].
Definition read (s : str) : result model := @read_json_model (fun _ => Some 0%Z) zero_hasher s.
Definition lines_read (s : str) : result (list str) := m <- read s ;; Ok (make_line_oriented_form (fun _ => []) shown m).
(** The text of the JSON written for the model read, and of the JSON read. *)
Definition back (s : str) : option (str * str) :=
  match read s, json_from_text (fun _ => Some 0%Z) s with
  | Ok m, Some j => match model_to_json m with Ok j' => Some (compact (fun _ => []) j', compact (fun _ => []) j) | _ => None end
  | _, _ => None
  end.

(** atelier-json/tests/json_simple_parse_tests.rs: empty_file *)
Example empty_file :
  lines_read (lit "{""smithy"": ""1""}")
  = Ok [].
Proof. vm_compute. reflexivity. Qed.

(** atelier-json/tests/json_simple_parse_tests.rs: simple_shape_only *)
Example simple_shape_only :
  lines_read (text ["{";
    "    ""smithy"": ""1"",";
    "    ""shapes"": {";
    "        ""smithy.waiters#WaiterDelay"": {";
    "            ""type"": ""integer""";
    "        }";
    "    }    ";
    "}"]%string)
  = Ok [(lit "integer::smithy.waiters#WaiterDelay")].
Proof. vm_compute. reflexivity. Qed.

(** atelier-json/tests/json_simple_parse_tests.rs: simple_shape_with_block_text *)
Example simple_shape_with_block_text :
  lines_read (text ["{";
    "    ""smithy"": ""1"",";
    "    ""shapes"": {";
    "        ""example.foo#FooDelay"": {";
    "            ""type"": ""integer"",";
    "            ""traits"": {";
    "                ""smithy.api#documentation"": ""A wait time for \""foo\"" to happen\n        """;
    "            }";
    "        }";
    "    }    ";
    "}"]%string)
  = Ok [(lit "integer::example.foo#FooDelay");
        (text ["integer::example.foo#FooDelay::trait::smithy.api#documentation<=""A wait time for ""foo"" to happen";
    "        """]%string)].
Proof. vm_compute. reflexivity. Qed.

(** atelier-json/tests/json_simple_parse_tests.rs: simple_shape_with_block_text_2 *)
Example simple_shape_with_block_text_2 :
  lines_read (text ["{";
    "    ""smithy"": ""1"",";
    "    ""shapes"": {";
    "        ""example.foo#FooDelay"": {";
    "            ""type"": ""integer"",";
    "            ""traits"": {";
    "                ""smithy.api#documentation"": ""Do empty \""\"" quotes work too?""";
    "            }";
    "        }";
    "    }    ";
    "}"]%string)
  = Ok [(lit "integer::example.foo#FooDelay");
        (lit "integer::example.foo#FooDelay::trait::smithy.api#documentation<=""Do empty """" quotes work too?""")].
Proof. vm_compute. reflexivity. Qed.

(** atelier-json/tests/json_simple_parse_tests.rs: simple_shape_with_traits *)
Example simple_shape_with_traits :
  lines_read (text ["{";
    "    ""smithy"": ""1"",";
    "    ""shapes"": {";
    "        ""smithy.waiters#WaiterDelay"": {";
    "            ""type"": ""integer"",";
    "            ""traits"": {";
    "                ""smithy.api#box"": {},";
    "                ""smithy.api#range"": {";
    "                    ""min"": 1";
    "                }";
    "            }";
    "        }";
    "    }    ";
    "}"]%string)
  = Ok [(lit "integer::smithy.waiters#WaiterDelay");
        (lit "integer::smithy.waiters#WaiterDelay::trait::smithy.api#box<={}");
        (lit "integer::smithy.waiters#WaiterDelay::trait::smithy.api#range<={min}=1")].
Proof. vm_compute. reflexivity. Qed.

(** atelier-json/tests/json_simple_parse_tests.rs: simple_shape_with_traits_and_comments *)
Example simple_shape_with_traits_and_comments :
  lines_read (text ["{";
    "    ""smithy"": ""1"",";
    "    ""shapes"": {";
    "        ""smithy.waiters#WaiterDelay"": {";
    "            ""type"": ""integer"",";
    "            ""traits"": {";
    "                ""smithy.api#box"": {},";
    "                ""smithy.api#range"": {";
    "                    ""min"": 1";
    "                }";
    "            }";
    "        }";
    "    }    ";
    "}"]%string)
  = Ok [(lit "integer::smithy.waiters#WaiterDelay");
        (lit "integer::smithy.waiters#WaiterDelay::trait::smithy.api#box<={}");
        (lit "integer::smithy.waiters#WaiterDelay::trait::smithy.api#range<={min}=1")].
Proof. vm_compute. reflexivity. Qed.

(** atelier-json/tests/json_simple_parse_tests.rs: simple_shape_with_traits_and_documentation *)
Example simple_shape_with_traits_and_documentation :
  lines_read (text ["{";
    "    ""smithy"": ""1"",";
    "    ""shapes"": {";
    "        ""smithy.waiters#WaiterName"": {";
    "            ""type"": ""string"",";
    "            ""traits"": {";
    "                ""smithy.api#documentation"": ""The name, or identifier, of a waiter."",";
    "                ""smithy.api#pattern"": ""^[A-Z]+[A-Za-z0-9]*$""";
    "            }";
    "        }";
    "    }    ";
    "}"]%string)
  = Ok [(lit "string::smithy.waiters#WaiterName");
        (lit "string::smithy.waiters#WaiterName::trait::smithy.api#documentation<=""The name, or identifier, of a waiter.""");
        (lit "string::smithy.waiters#WaiterName::trait::smithy.api#pattern<=""^[A-Z]+[A-Za-z0-9]*$""")].
Proof. vm_compute. reflexivity. Qed.

(** atelier-json/tests/json_simple_parse_tests.rs: service_with_renames *)
Example service_with_renames :
  lines_read (text ["{";
    "    ""smithy"": ""1.0"",";
    "    ""shapes"": {";
    "        ""smithy.example#GetSomething"": {";
    "            ""type"": ""operation""";
    "        },";
    "        ""smithy.example#MyService"":{";
    "            ""type"": ""service"",";
    "            ""version"": ""2017-02-11"",";
    "            ""operations"": [";
    "                {";
    "                    ""target"": ""smithy.example#GetSomething""";
    "                }";
    "            ],";
    "            ""rename"": {";
    "                ""foo.example#Widget"": ""FooWidget""";
    "            }";
    "        }";
    "    }";
    "}"]%string)
  = Ok [(lit "operation::smithy.example#GetSomething");
        (lit "service::smithy.example#MyService");
        (lit "service::smithy.example#MyService::operation=>smithy.example#GetSomething");
        (lit "service::smithy.example#MyService::rename::foo.example#Widget<=FooWidget");
        (lit "service::smithy.example#MyService::version<=""2017-02-11""")].
Proof. vm_compute. reflexivity. Qed.

(** atelier-json/tests/json_model_to_ast.rs: model_to_json_ex_17_2_1 *)
Example model_to_json_ex_17_2_1 : match back (text ["{";
    "    ""smithy"": ""1.0"",";
    "    ""shapes"": {";
    "        ""smithy.example#MyString"": {";
    "            ""type"": ""string""";
    "        }";
    "    }";
    "}"]%string) with Some (a, b) => a = b | None => False end.
Proof. vm_compute. reflexivity. Qed.

(** atelier-json/tests/json_model_to_ast.rs: model_to_json_ex_17_2_3 *)
Example model_to_json_ex_17_2_3 : match back (text ["{";
    "    ""smithy"": ""1.0"",";
    "    ""shapes"": {";
    "        ""smithy.example#MyString"": {";
    "            ""type"": ""string"",";
    "            ""traits"": {";
    "                ""smithy.api#documentation"": ""My documentation string""";
    "            }";
    "        }";
    "    }";
    "}"]%string) with Some (a, b) => a = b | None => False end.
Proof. vm_compute. reflexivity. Qed.

(** atelier-json/tests/json_model_to_ast.rs: model_to_json_ex_17_3 *)
Example model_to_json_ex_17_3 : match back (text ["{";
    "    ""smithy"": ""1.0"",";
    "    ""shapes"": {";
    "        ""smithy.example#Blob"": {";
    "            ""type"": ""blob""";
    "        },";
    "        ""smithy.example#Boolean"": {";
    "            ""type"": ""boolean""";
    "        },";
    "        ""smithy.example#Document"": {";
    "            ""type"": ""document""";
    "        },";
    "        ""smithy.example#String"": {";
    "            ""type"": ""string""";
    "        },";
    "        ""smithy.example#Byte"": {";
    "            ""type"": ""byte""";
    "        },";
    "        ""smithy.example#Short"": {";
    "            ""type"": ""short""";
    "        },";
    "        ""smithy.example#Integer"": {";
    "            ""type"": ""integer""";
    "        },";
    "        ""smithy.example#Long"": {";
    "            ""type"": ""long""";
    "        },";
    "        ""smithy.example#Float"": {";
    "            ""type"": ""float""";
    "        },";
    "        ""smithy.example#Double"": {";
    "            ""type"": ""double""";
    "        },";
    "        ""smithy.example#BigInteger"": {";
    "            ""type"": ""bigInteger""";
    "        },";
    "        ""smithy.example#BigDecimal"": {";
    "            ""type"": ""bigDecimal""";
    "        },";
    "        ""smithy.example#Timestamp"": {";
    "            ""type"": ""timestamp""";
    "        }";
    "    }";
    "}"]%string) with Some (a, b) => a = b | None => False end.
Proof. vm_compute. reflexivity. Qed.

(** atelier-json/tests/json_model_to_ast.rs: model_to_json_ex_17_4_1 *)
Example model_to_json_ex_17_4_1 : match back (text ["{";
    "    ""smithy"": ""1.0"",";
    "    ""shapes"": {";
    "        ""smithy.example#MyList"": {";
    "            ""type"": ""list"",";
    "            ""member"": {";
    "                ""target"": ""smithy.api#String""";
    "            }";
    "        }";
    "    }";
    "}"]%string) with Some (a, b) => a = b | None => False end.
Proof. vm_compute. reflexivity. Qed.

(** atelier-json/tests/json_model_to_ast.rs: model_to_json_ex_17_4_2 *)
Example model_to_json_ex_17_4_2 : match back (text ["{";
    "    ""smithy"": ""1.0"",";
    "    ""shapes"": {";
    "        ""smithy.example#MySet"": {";
    "            ""type"": ""set"",";
    "            ""member"": {";
    "                ""target"": ""smithy.api#String""";
    "            }";
    "        }";
    "    }";
    "}"]%string) with Some (a, b) => a = b | None => False end.
Proof. vm_compute. reflexivity. Qed.

(** atelier-json/tests/json_model_to_ast.rs: model_to_json_ex_17_5 *)
Example model_to_json_ex_17_5 : match back (text ["{";
    "    ""smithy"": ""1.0"",";
    "    ""shapes"": {";
    "        ""smithy.example#MyList"": {";
    "            ""type"": ""list"",";
    "            ""member"": {";
    "                ""target"": ""smithy.api#String"",";
    "                ""traits"": {";
    "                    ""smithy.api#documentation"": ""Member documentation""";
    "                }";
    "            }";
    "        }";
    "    }";
    "}"]%string) with Some (a, b) => a = b | None => False end.
Proof. vm_compute. reflexivity. Qed.

(** atelier-json/tests/json_model_to_ast.rs: model_to_json_ex_17_6 *)
Example model_to_json_ex_17_6 : match back (text ["{";
    "    ""smithy"": ""1.0"",";
    "    ""shapes"": {";
    "        ""smithy.example#Service"": {";
    "            ""type"": ""service"",";
    "            ""version"": ""2017-02-11"",";
    "            ""operations"": [";
    "                {";
    "                    ""target"": ""smithy.example#Operation""";
    "                }";
    "            ]";
    "        },";
    "        ""smithy.example#Operation"": {";
    "            ""type"": ""operation""";
    "        }";
    "    }";
    "}"]%string) with Some (a, b) => a = b | None => False end.
Proof. vm_compute. reflexivity. Qed.

(** atelier-json/tests/json_model_to_ast.rs: model_to_json_ex_17_7 *)
Example model_to_json_ex_17_7 : match back (text ["{";
    "    ""smithy"": ""1.0"",";
    "    ""shapes"": {";
    "        ""smithy.example#IntegerMap"": {";
    "            ""type"": ""map"",";
    "            ""key"": {";
    "                ""target"": ""smithy.api#String""";
    "            },";
    "            ""value"": {";
    "                ""target"": ""smithy.api#Integer""";
    "            }";
    "        }";
    "    }";
    "}"]%string) with Some (a, b) => a = b | None => False end.
Proof. vm_compute. reflexivity. Qed.

(** atelier-json/tests/json_model_to_ast.rs: model_to_json_ex_17_8_1 *)
Example model_to_json_ex_17_8_1 : match back (text ["{";
    "    ""smithy"": ""1.0"",";
    "    ""shapes"": {";
    "        ""smithy.example#MyStructure"": {";
    "            ""type"": ""structure"",";
    "            ""members"": {";
    "                ""stringMember"": {";
    "                    ""target"": ""smithy.api#String"",";
    "                    ""traits"": {";
    "                        ""smithy.api#required"": {}";
    "                    }";
    "                },";
    "                ""numberMember"": {";
    "                    ""target"": ""smithy.api#Integer""";
    "                }";
    "            }";
    "        }";
    "    }";
    "}"]%string) with Some (a, b) => a = b | None => False end.
Proof. vm_compute. reflexivity. Qed.

(** atelier-json/tests/json_model_to_ast.rs: model_to_json_ex_17_8_2 *)
Example model_to_json_ex_17_8_2 : match back (text ["{";
    "    ""smithy"": ""1.0"",";
    "    ""shapes"": {";
    "        ""smithy.example#MyUnion"": {";
    "            ""type"": ""union"",";
    "            ""members"": {";
    "                ""a"": {";
    "                    ""target"": ""smithy.api#String""";
    "                },";
    "                ""b"": {";
    "                    ""target"": ""smithy.api#Integer""";
    "                }";
    "            }";
    "        }";
    "    }";
    "}"]%string) with Some (a, b) => a = b | None => False end.
Proof. vm_compute. reflexivity. Qed.

(** atelier-json/tests/json_model_to_ast.rs: model_to_json_ex_17_9 *)
Example model_to_json_ex_17_9 : match back (text ["{";
    "    ""smithy"": ""1.0"",";
    "    ""shapes"": {";
    "        ""smithy.example#MyService"": {";
    "            ""type"": ""service"",";
    "            ""version"": ""2017-02-11"",";
    "            ""operations"": [";
    "                {";
    "                    ""target"": ""smithy.example#GetServerTime""";
    "                }";
    "            ],";
    "            ""resources"": [";
    "                {";
    "                    ""target"": ""smithy.example#SomeResource""";
    "                }";
    "            ],";
    "            ""traits"": {";
    "                ""smithy.api#documentation"": ""Documentation for the service""";
    "            },";
    "            ""rename"": {";
    "                ""smithy.example#Widget"": ""SmithyWidget"",";
    "                ""foo.example#Widget"": ""FooWidget""";
    "            }";
    "        }";
    "    }";
    "}"]%string) with Some (a, b) => a = b | None => False end.
Proof. vm_compute. reflexivity. Qed.

(** atelier-json/tests/json_model_to_ast.rs: model_to_json_ex_17_10 *)
Example model_to_json_ex_17_10 : match back (text ["{";
    "    ""smithy"": ""1.0"",";
    "    ""shapes"": {";
    "        ""smithy.example#Thing"": {";
    "            ""type"": ""resource"",";
    "            ""identifiers"": {";
    "                ""forecastId"": {";
    "                    ""target"": ""smithy.api#String""";
    "                }";
    "            },";
    "            ""create"": {";
    "                ""target"": ""smithy.example#CreateThing""";
    "            },";
    "            ""read"": {";
    "                ""target"": ""smithy.example#GetThing""";
    "            },";
    "            ""update"": {";
    "                ""target"": ""smithy.example#Updatething""";
    "            },";
    "            ""delete"": {";
    "                ""target"": ""smithy.example#DeleteThing""";
    "            },";
    "            ""list"": {";
    "                ""target"": ""smithy.example#ListThings""";
    "            },";
    "            ""operations"": [";
    "                {";
    "                    ""target"": ""smithy.example#SomeInstanceOperation""";
    "                }";
    "            ],";
    "            ""collectionOperations"": [";
    "                {";
    "                    ""target"": ""smithy.example#SomeCollectionOperation""";
    "                }";
    "            ],";
    "            ""resources"": [";
    "                {";
    "                    ""target"": ""smithy.example#SomeResource""";
    "                }";
    "            ]";
    "        }";
    "    }";
    "}"]%string) with Some (a, b) => a = b | None => False end.
Proof. vm_compute. reflexivity. Qed.

(** atelier-json/tests/json_model_to_ast.rs: model_to_json_ex_17_11 *)
Example model_to_json_ex_17_11 : match back (text ["{";
    "    ""smithy"": ""1.0"",";
    "    ""shapes"": {";
    "        ""smithy.example#MyOperation"": {";
    "            ""type"": ""operation"",";
    "            ""input"": {";
    "                ""target"": ""smithy.example#MyOperationInput""";
    "            },";
    "            ""output"": {";
    "                ""target"": ""smithy.example#MyOperationOutput""";
    "            },";
    "            ""errors"": [";
    "                {";
    "                    ""target"": ""smithy.example#BadRequestError""";
    "                },";
    "                {";
    "                    ""target"": ""smithy.example#NotFoundError""";
    "                }";
    "            ]";
    "        },";
    "        ""smithy.example#MyOperationInput"": {";
    "            ""type"": ""structure""";
    "        },";
    "        ""smithy.example#MyOperationOutput"": {";
    "            ""type"": ""structure""";
    "        },";
    "        ""smithy.example#BadRequestError"": {";
    "            ""type"": ""structure"",";
    "            ""traits"": {";
    "                ""smithy.api#error"": ""client""";
    "            }";
    "        },";
    "        ""smithy.example#NotFoundError"": {";
    "            ""type"": ""structure"",";
    "            ""traits"": {";
    "                ""smithy.api#error"": ""client""";
    "            }";
    "        }";
    "    }";
    "}"]%string) with Some (a, b) => a = b | None => False end.
Proof. vm_compute. reflexivity. Qed.

(** atelier-json/tests/json_model_to_ast.rs: model_to_json_ex_17_12 *)
Example model_to_json_ex_17_12 : match back (text ["{";
    "    ""smithy"": ""1.0"",";
    "    ""shapes"": {";
    "        ""smithy.example#Struct"": {";
    "            ""type"": ""structure"",";
    "            ""members"": {";
    "                ""foo"": {";
    "                    ""target"": ""smithy.api#String""";
    "                }";
    "            }";
    "        },";
    "        ""smithy.example#Struct$foo"": {";
    "            ""type"": ""apply"",";
    "            ""traits"": {";
    "                ""smithy.api#documentation"": ""My documentation string""";
    "            }";
    "        }";
    "    }";
    "}"]%string) with Some (a, b) => a = b | None => False end.
Proof. vm_compute. reflexivity. Qed.

(** atelier-json/tests/json_regression_tests.rs: metadata_incorrectly_inside_shapes *)
Example metadata_incorrectly_inside_shapes : match back (text ["{";
    "    ""smithy"": ""1.0"",";
    "        ""metadata"": {";
    "        ""foo"": ""hello""";
    "    },";
    "    ""shapes"": {";
    "    }";
    "}"]%string) with Some (a, b) => a = b | None => False end.
Proof. vm_compute. reflexivity. Qed.

(** atelier-json/tests/good/aws.api.json is read. *)
Example aws_api_json : is_ok (read (text ["{";
    "    ""smithy"": ""1.0"",";
    "    ""shapes"": {";
    "        ""aws.api#arn"": {";
    "            ""type"": ""structure"",";
    "            ""members"": {";
    "                ""template"": {";
    "                    ""target"": ""smithy.api#String"",";
    "                    ""traits"": {";
    "                        ""smithy.api#required"": {}";
    "                    }";
    "                },";
    "                ""absolute"": {";
    "                    ""target"": ""smithy.api#Boolean""";
    "                },";
    "                ""noRegion"": {";
    "                    ""target"": ""smithy.api#Boolean""";
    "                },";
    "                ""noAccount"": {";
    "                    ""target"": ""smithy.api#Boolean""";
    "                }";
    "            },";
    "            ""traits"": {";
    "                ""smithy.api#trait"": {";
    "                    ""selector"": ""resource""";
    "                },";
    "                ""smithy.api#externalDocumentation"": {";
    "                    ""Reference"": ""https://docs.aws.amazon.com/general/latest/gr/aws-arns-and-namespaces.html""";
    "                },";
    "                ""smithy.api#documentation"": ""Specifies an ARN template for the resource.""";
    "            }";
    "        },";
    "        ""aws.api#service"": {";
    "            ""type"": ""structure"",";
    "            ""members"": {";
    "                ""sdkId"": {";
    "                    ""target"": ""smithy.api#String"",";
    "                    ""traits"": {";
    "                        ""smithy.api#required"": {}";
    "                    }";
    "                },";
    "                ""arnNamespace"": {";
    "                    ""target"": ""aws.api#ArnNamespace""";
    "                },";
    "                ""cloudFormationName"": {";
    "                    ""target"": ""aws.api#CloudFormationName""";
    "                },";
    "                ""cloudTrailEventSource"": {";
    "                    ""target"": ""smithy.api#String""";
    "                }";
    "            },";
    "            ""traits"": {";
    "                ""smithy.api#trait"": {";
    "                    ""selector"": ""service""";
    "                }";
    "            }";
    "        },";
    "        ""aws.api#arnReference"": {";
    "            ""type"": ""structure"",";
    "            ""members"": {";
    "                ""type"": {";
    "                    ""target"": ""smithy.api#String""";
    "                },";
    "                ""resource"": {";
    "                    ""target"": ""smithy.api#String""";
    "                },";
    "                ""service"": {";
    "                    ""target"": ""smithy.api#String""";
    "                }";
    "            },";
    "            ""traits"": {";
    "                ""smithy.api#trait"": {";
    "                    ""selector"": ""string""";
    "                },";
    "                ""smithy.api#documentation"": ""Marks a string as containing an ARN.""";
    "            }";
    "        },";
    "        ""aws.api#data"": {";
    "            ""type"": ""string"",";
    "            ""traits"": {";
    "                ""smithy.api#trait"": {";
    "                    ""selector"": "":test(simpleType, collection, structure, union, member)""";
    "                },";
    "                ""smithy.api#enum"": [";
    "                    {";
    "                        ""value"": ""content"",";
    "                        ""name"": ""CUSTOMER_CONTENT"",";
    "                        ""documentation"": ""Customer content means any software (including machine images), data, text, audio, video or images that customers or any customer end user transfers to AWS for processing, storage or hosting by AWS services in connection with the customer\u2019s accounts and any computational results that customers or any customer end user derive from the foregoing through their use of AWS services.""";
    "                    },";
    "                    {";
    "                        ""value"": ""account"",";
    "                        ""name"": ""CUSTOMER_ACCOUNT_INFORMATION"",";
    "                        ""documentation"": ""Account information means information about customers that customers provide to AWS in connection with the creation or administration of customers\u2019 accounts.""";
    "                    },";
    "                    {";
    "                        ""value"": ""usage"",";
    "                        ""name"": ""SERVICE_ATTRIBUTES"",";
    "                        ""documentation"": ""Service Attributes means service usage data related to a customer\u2019s account, such as resource identifiers, metadata tags, security and access roles, rules, usage policies, permissions, usage statistics, logging data, and analytics.""";
    "                    },";
    "                    {";
    "                        ""value"": ""tagging"",";
    "                        ""name"": ""TAG_DATA"",";
    "                        ""documentation"": ""Designates metadata tags applied to AWS resources.""";
    "                    },";
    "                    {";
    "                        ""value"": ""permissions"",";
    "                        ""name"": ""PERMISSIONS_DATA"",";
    "                        ""documentation"": ""Designates security and access roles, rules, usage policies, and permissions.""";
    "                    }";
    "                ],";
    "                ""smithy.api#documentation"": ""Designates the target as containing data of a known classification level.""";
    "            }";
    "        },";
    "        ""aws.api#controlPlane"": {";
    "            ""type"": ""structure"",";
    "            ""traits"": {";
    "                ""smithy.api#trait"": {";
    "                    ""selector"": "":test(service, resource, operation)"",";
    "                    ""conflicts"": [";
    "                        ""aws.api#dataPlane""";
    "                    ]";
    "                },";
    "                ""smithy.api#documentation"": ""Defines a service, resource, or operation as operating on the control plane.""";
    "            }";
    "        },";
    "        ""aws.api#dataPlane"": {";
    "            ""type"": ""structure"",";
    "            ""traits"": {";
    "                ""smithy.api#trait"": {";
    "                    ""selector"": "":test(service, resource, operation)"",";
    "                    ""conflicts"": [";
    "                        ""aws.api#controlPlane""";
    "                    ]";
    "                },";
    "                ""smithy.api#documentation"": ""Defines a service, resource, or operation as operating on the data plane.""";
    "            }";
    "        },";
    "        ""aws.api#ArnNamespace"": {";
    "            ""type"": ""string"",";
    "            ""traits"": {";
    "                ""smithy.api#pattern"": ""^[a-z0-9.\\-]{1,63}$"",";
    "                ""smithy.api#private"": {}";
    "            }";
    "        },";
    "        ""aws.api#CloudFormationName"": {";
    "            ""type"": ""string"",";
    "            ""traits"": {";
    "                ""smithy.api#pattern"": ""^[A-Z][A-Za-z0-9]+$"",";
    "                ""smithy.api#private"": {}";
    "            }";
    "        },";
    "        ""aws.api#clientDiscoveredEndpoint"": {";
    "            ""type"": ""structure"",";
    "            ""members"": {";
    "                ""required"": {";
    "                    ""target"": ""smithy.api#Boolean"",";
    "                    ""traits"": {";
    "                        ""smithy.api#required"": {}";
    "                    }";
    "                }";
    "            },";
    "            ""traits"": {";
    "                ""smithy.api#trait"": {";
    "                    ""selector"": ""operation""";
    "                },";
    "                ""smithy.api#documentation"": ""Indicates that the target operation should use the client's endpoint discovery logic.""";
    "            }";
    "        },";
    "        ""aws.api#clientEndpointDiscoveryId"": {";
    "            ""type"": ""structure"",";
    "            ""traits"": {";
    "                ""smithy.api#trait"": {";
    "                    ""selector"": ""operation[trait|aws.api#clientDiscoveredEndpoint] -[input]-> structure > :test(member[trait|required] > string)""";
    "                },";
    "                ""smithy.api#documentation"": ""Indicates members of the operation input which should be use to discover endpoints.""";
    "            }";
    "        },";
    "        ""aws.api#clientEndpointDiscovery"": {";
    "            ""type"": ""structure"",";
    "            ""members"": {";
    "                ""operation"": {";
    "                    ""target"": ""smithy.api#String"",";
    "                    ""traits"": {";
    "                        ""smithy.api#idRef"": {";
    "                            ""failWhenMissing"": true,";
    "                            ""selector"": ""operation""";
    "                        },";
    "                        ""smithy.api#required"": {},";
    "                        ""smithy.api#documentation"": ""Indicates the operation that clients should use to discover endpoints for the service.""";
    "                    }";
    "                },";
    "                ""error"": {";
    "                    ""target"": ""smithy.api#String"",";
    "                    ""traits"": {";
    "                        ""smithy.api#idRef"": {";
    "                            ""failWhenMissing"": true,";
    "                            ""selector"": ""structure[trait|error]""";
    "                        },";
    "                        ""smithy.api#required"": {},";
    "                        ""smithy.api#documentation"": ""Indicates the error that tells clients that the endpoint they are using is no longer valid. This error MUST be bound to any operation bound to the service which is marked with the aws.api#clientDiscoveredEndpoint trait.""";
    "                    }";
    "                }";
    "            },";
    "            ""traits"": {";
    "                ""smithy.api#trait"": {";
    "                    ""selector"": ""service""";
    "                },";
    "                ""smithy.api#documentation"": ""Configures endpoint discovery for the service.""";
    "            }";
    "        }";
    "    }";
    "}";
    ""]%string)) = true.
Proof. vm_compute. reflexivity. Qed.

(** atelier-json/tests/good/aws.apigateway.json is read. *)
Example aws_apigateway_json : is_ok (read (text ["{";
    "    ""smithy"": ""1.0"",";
    "    ""shapes"": {";
    "        ""aws.apigateway#apiKeySource"": {";
    "            ""type"": ""string"",";
    "            ""traits"": {";
    "                ""smithy.api#trait"": {";
    "                    ""selector"": ""service""";
    "                },";
    "                ""smithy.api#documentation"": ""Specifies the source of the caller identifier that will be used to throttle API methods that require a key."",";
    "                ""smithy.api#externalDocumentation"": {";
    "                    ""Developer Guide"": ""https://docs.aws.amazon.com/apigateway/latest/developerguide/api-gateway-swagger-extensions-api-key-source.html""";
    "                },";
    "                ""smithy.api#tags"": [";
    "                    ""internal""";
    "                ]";
    "            }";
    "        },";
    "        ""aws.apigateway#authorizers"": {";
    "            ""type"": ""map"",";
    "            ""key"": {";
    "                ""target"": ""smithy.api#String""";
    "            },";
    "            ""value"": {";
    "                ""target"": ""aws.apigateway#AuthorizerDefinition""";
    "            },";
    "            ""traits"": {";
    "                ""smithy.api#trait"": {";
    "                    ""selector"": ""service""";
    "                },";
    "                ""smithy.api#documentation"": ""A list of API Gateway authorizers to augment the service's declared authentication mechanisms."",";
    "                ""smithy.api#tags"": [";
    "                    ""internal""";
    "                ]";
    "            }";
    "        },";
    "        ""aws.apigateway#AuthorizerDefinition"": {";
    "            ""type"": ""structure"",";
    "            ""members"": {";
    "                ""scheme"": {";
    "                    ""target"": ""smithy.api#String"",";
    "                    ""traits"": {";
    "                        ""smithy.api#required"": {},";
    "                        ""smithy.api#documentation"": ""The Smithy authentication scheme used by the client (e.g, aws.v4)."",";
    "                        ""smithy.api#idRef"": {";
    "                            ""selector"": ""[trait|authDefinition]"",";
    "                            ""failWhenMissing"": true,";
    "                            ""errorMessage"": ""The scheme of an authorizer definition must reference an auth trait""";
    "                        }";
    "                    }";
    "                },";
    "                ""type"": {";
    "                    ""target"": ""smithy.api#String"",";
    "                    ""traits"": {";
    "                        ""smithy.api#documentation"": ""The type of the authorizer. If specifying information beyond the scheme, this value is required. The value must be \""token\"", for an authorizer with the caller identity embedded in an authorization token, or \""request\"", for an authorizer with the caller identity contained in request parameters.""";
    "                    }";
    "                },";
    "                ""customAuthType"": {";
    "                    ""target"": ""smithy.api#String"",";
    "                    ""traits"": {";
    "                        ""smithy.api#documentation"": ""This value is not used directly by API Gateway but will be used for OpenAPI exports. This will default to \""awsSigV4\"" if your scheme is \""aws.v4\"", or \""custom\"" otherwise.""";
    "                    }";
    "                },";
    "                ""uri"": {";
    "                    ""target"": ""smithy.api#String"",";
    "                    ""traits"": {";
    "                        ""smithy.api#documentation"": ""The Uniform Resource Identifier (URI) of the authorizer Lambda function""";
    "                    }";
    "                },";
    "                ""credentials"": {";
    "                    ""target"": ""smithy.api#String"",";
    "                    ""traits"": {";
    "                        ""smithy.api#documentation"": ""Credentials required for invoking the authorizer""";
    "                    }";
    "                },";
    "                ""identitySource"": {";
    "                    ""target"": ""smithy.api#String"",";
    "                    ""traits"": {";
    "                        ""smithy.api#documentation"": ""Comma-separated list of mapping expressions of the request parameters as the identity source. Applicable for the authorizer of the \""request\"" type only.""";
    "                    }";
    "                },";
    "                ""identityValidationExpression"": {";
    "                    ""target"": ""smithy.api#String"",";
    "                    ""traits"": {";
    "                        ""smithy.api#documentation"": ""A regular expression for validating the token as the incoming identity""";
    "                    }";
    "                },";
    "                ""resultTtlInSeconds"": {";
    "                    ""target"": ""smithy.api#Integer"",";
    "                    ""traits"": {";
    "                        ""smithy.api#documentation"": ""The number of seconds for which the resulting IAM policy is cached.""";
    "                    }";
    "                }";
    "            },";
    "            ""traits"": {";
    "                ""smithy.api#documentation"": ""An object that associates an authorizer and associated metadata with an authentication mechanism."",";
    "                ""smithy.api#private"": {}";
    "            }";
    "        },";
    "        ""aws.apigateway#authorizer"": {";
    "            ""type"": ""string"",";
    "            ""traits"": {";
    "                ""smithy.api#trait"": {";
    "                    ""selector"": "":test(service, resource, operation)""";
    "                },";
    "                ""smithy.api#documentation"": ""Attaches an authorizer to a service, resource, or operation."",";
    "                ""smithy.api#tags"": [";
    "                    ""internal""";
    "                ]";
    "            }";
    "        },";
    "        ""aws.apigateway#requestValidator"": {";
    "            ""type"": ""string"",";
    "            ""traits"": {";
    "                ""smithy.api#trait"": {";
    "                    ""selector"": "":test(service, operation)""";
    "                },";
    "                ""smithy.api#documentation"": ""Selects which request validation strategy to use. One of: 'full', 'params-only', 'body-only'"",";
    "                ""smithy.api#tags"": [";
    "                    ""internal""";
    "                ]";
    "            }";
    "        },";
    "        ""aws.apigateway#integration"": {";
    "            ""type"": ""structure"",";
    "            ""members"": {";
    "                ""type"": {";
    "                    ""target"": ""aws.apigateway#IntegrationType"",";
    "                    ""traits"": {";
    "                        ""smithy.api#required"": {}";
    "                    }";
    "                },";
    "                ""uri"": {";
    "                    ""target"": ""aws.apigateway#Arn"",";
    "                    ""traits"": {";
    "                        ""smithy.api#required"": {}";
    "                    }";
    "                },";
    "                ""credentials"": {";
    "                    ""target"": ""aws.apigateway#IamRoleArn""";
    "                },";
    "                ""httpMethod"": {";
    "                    ""target"": ""smithy.api#String"",";
    "                    ""traits"": {";
    "                        ""smithy.api#required"": {}";
    "                    }";
    "                },";
    "                ""passThroughBehavior"": {";
    "                    ""target"": ""aws.apigateway#PassThroughBehavior""";
    "                },";
    "                ""contentHandling"": {";
    "                    ""target"": ""aws.apigateway#ContentHandling""";
    "                },";
    "                ""timeoutInMillis"": {";
    "                    ""target"": ""smithy.api#Integer""";
    "                },";
    "                ""connectionId"": {";
    "                    ""target"": ""smithy.api#String""";
    "                },";
    "                ""connectionType"": {";
    "                    ""target"": ""aws.apigateway#ConnectionType""";
    "                },";
    "                ""cacheNamespace"": {";
    "                    ""target"": ""smithy.api#String""";
    "                },";
    "                ""cacheKeyParameters"": {";
    "                    ""target"": ""aws.apigateway#StringList""";
    "                },";
    "                ""requestParameters"": {";
    "                    ""target"": ""aws.apigateway#RequestParameters""";
    "                },";
    "                ""requestTemplates"": {";
    "                    ""target"": ""aws.apigateway#Templates""";
    "                },";
    "                ""responses"": {";
    "                    ""target"": ""aws.apigateway#IntegrationResponses""";
    "                }";
    "            },";
    "            ""traits"": {";
    "                ""smithy.api#trait"": {";
    "                    ""selector"": "":test(service, resource, operation)"",";
    "                    ""conflicts"": [";
    "                        ""aws.apigateway#mockIntegration""";
    "                    ]";
    "                },";
    "                ""smithy.api#documentation"": ""Defines an API Gateway integration."",";
    "                ""smithy.api#tags"": [";
    "                    ""internal""";
    "                ]";
    "            }";
    "        },";
    "        ""aws.apigateway#mockIntegration"": {";
    "            ""type"": ""structure"",";
    "            ""members"": {";
    "                ""passThroughBehavior"": {";
    "                    ""target"": ""aws.apigateway#PassThroughBehavior""";
    "                },";
    "                ""requestParameters"": {";
    "                    ""target"": ""aws.apigateway#RequestParameters""";
    "                },";
    "                ""requestTemplates"": {";
    "                    ""target"": ""aws.apigateway#Templates""";
    "                },";
    "                ""responses"": {";
    "                    ""target"": ""aws.apigateway#IntegrationResponses""";
    "                }";
    "            },";
    "            ""traits"": {";
    "                ""smithy.api#trait"": {";
    "                    ""selector"": "":test(service, resource, operation)"",";
    "                    ""conflicts"": [";
    "                        ""aws.apigateway#integration""";
    "                    ]";
    "                },";
    "                ""smithy.api#documentation"": ""Defines an API Gateway mock integration."",";
    "                ""smithy.api#tags"": [";
    "                    ""internal""";
    "                ]";
    "            }";
    "        },";
    "        ""aws.apigateway#IntegrationType"": {";
    "            ""type"": ""string"",";
    "            ""traits"": {";
    "                ""smithy.api#enum"": [";
    "                    {";
    "                        ""value"": ""aws"",";
    "                        ""name"": ""AWS""";
    "                    },";
    "                    {";
    "                        ""value"": ""aws_proxy"",";
    "                        ""name"": ""AWS_PROXY""";
    "                    },";
    "                    {";
    "                        ""value"": ""http"",";
    "                        ""name"": ""HTTP""";
    "                    },";
    "                    {";
    "                        ""value"": ""http_proxy"",";
    "                        ""name"": ""HTTP_PROXY""";
    "                    }";
    "                ]";
    "            }";
    "        },";
    "        ""aws.apigateway#IamRoleArn"": {";
    "            ""type"": ""string"",";
    "            ""traits"": {";
    "                ""smithy.api#documentation"": ""<p>The ARN of the IAM role to assume with invoking the integration.</p><p>This string MAY contain the literal string <code>{serviceName}</code> and/or the literal string <code>{operationName}</code>, which will be replaced with the name of the Smithy service shape and the name of the Smithy operation shape, respectively.</p>"",";
    "                ""aws.api#arnReference"": {";
    "                    ""type"": ""AWS::IAM::Role""";
    "                },";
    "                ""smithy.api#private"": {}";
    "            }";
    "        },";
    "        ""aws.apigateway#Arn"": {";
    "            ""type"": ""string"",";
    "            ""traits"": {";
    "                ""smithy.api#documentation"": ""<p>The ARN of an AWS integration target.</p><p>This string MAY contain the literal string <code>{serviceName}</code> and/or the literal string <code>{operationName}</code>, which will be replaced with the name of the Smithy service shape and the name of the Smithy operation shape, respectively.</p>"",";
    "                ""aws.api#arnReference"": {},";
    "                ""smithy.api#private"": {}";
    "            }";
    "        },";
    "        ""aws.apigateway#RequestParameters"": {";
    "            ""type"": ""map"",";
    "            ""key"": {";
    "                ""target"": ""smithy.api#String""";
    "            },";
    "            ""value"": {";
    "                ""target"": ""smithy.api#String""";
    "            },";
    "            ""traits"": {";
    "                ""smithy.api#documentation"": ""<p>A mapping of integration request parameters to the API Gateway data mapping expression that should be used to populate the parameter.</p> <p><strong>Note:</strong> This feature is provided primarily to allow injecting static values and context variables for request parameters. Request data MAY be mapped to headers using the syntax described in <a href=\""https://docs.aws.amazon.com/apigateway/latest/developerguide/request-response-data-mappings.html#mapping-response-parameters\"">the API Gateway Developer Guide</a>; however, the data must be identified according to its location in the serialized request, which may differ from protocol to protocol. Here be dragons!</p>"",";
    "                ""smithy.api#private"": {}";
    "            }";
    "        },";
    "        ""aws.apigateway#Templates"": {";
    "            ""type"": ""map"",";
    "            ""key"": {";
    "                ""target"": ""smithy.api#String""";
    "            },";
    "            ""value"": {";
    "                ""target"": ""smithy.api#String""";
    "            },";
    "            ""traits"": {";
    "                ""smithy.api#documentation"": ""<p>A map of MIME types to velocity templates allowing you to craft a new integration message from received data.</p><p><strong>Note:</strong> This feature is provided primarily to allow injecting static values and context variables for request parameters. Request data MAY be mapped to headers using the syntax described in <a href=\""https://docs.aws.amazon.com/apigateway/latest/developerguide/request-response-data-mappings.html#mapping-response-parameters\"">the API Gateway Developer Guide</a>; however, the data must be identified according to its location in the serialized request, which may differ from protocol to protocol. Here be dragons!</p>"",";
    "                ""smithy.api#private"": {}";
    "            }";
    "        },";
    "        ""aws.apigateway#ConnectionType"": {";
    "            ""type"": ""string"",";
    "            ""traits"": {";
    "                ""smithy.api#private"": {},";
    "                ""smithy.api#enum"": [";
    "                    {""value"": ""INTERNET""},";
    "                    {""value"": ""VPC_LINK""}";
    "                ]";
    "            }";
    "        },";
    "        ""aws.apigateway#PassThroughBehavior"": {";
    "            ""type"": ""string"",";
    "            ""traits"": {";
    "                ""smithy.api#documentation"": ""Defines the passThroughBehavior for the integration"",";
    "                ""smithy.api#enum"": [";
    "                    {";
    "                        ""value"": ""when_no_templates"",";
    "                        ""name"": ""WHEN_NO_TEMPLATES""";
    "                    },";
    "                    {";
    "                        ""value"": ""when_no_match"",";
    "                        ""name"": ""WHEN_NO_MATCH""";
    "                    },";
    "                    {";
    "                        ""value"": ""never"",";
    "                        ""name"": ""NEVER""";
    "                    }";
    "                ],";
    "                ""smithy.api#private"": {}";
    "            }";
    "        },";
    "        ""aws.apigateway#ContentHandling"": {";
    "            ""type"": ""string"",";
    "            ""traits"": {";
    "                ""smithy.api#documentation"": ""Defines the contentHandling for the integration"",";
    "                ""smithy.api#enum"": [";
    "                    {""value"": ""CONVERT_TO_TEXT"", ""name"": ""CONVERT_TO_TEXT""},";
    "                    {""value"": ""CONVERT_TO_BINARY"", ""name"": ""CONVERT_TO_BINARY""}";
    "                ],";
    "                ""smithy.api#private"": {}";
    "            }";
    "        },";
    "        ""aws.apigateway#StringList"": {";
    "            ""type"": ""list"",";
    "            ""member"": {";
    "                ""target"": ""smithy.api#String""";
    "            }";
    "        },";
    "        ""aws.apigateway#IntegrationResponses"": {";
    "            ""type"": ""map"",";
    "            ""key"": {";
    "                ""target"": ""smithy.api#String""";
    "            },";
    "            ""value"": {";
    "                ""target"": ""aws.apigateway#IntegrationResponse""";
    "            },";
    "            ""traits"": {";
    "                ""smithy.api#documentation"": ""A map of response identifiers to responses."",";
    "                ""smithy.api#private"": {}";
    "            }";
    "        },";
    "        ""aws.apigateway#IntegrationResponse"": {";
    "            ""type"": ""structure"",";
    "            ""members"": {";
    "                ""statusCode"": {";
    "                    ""target"": ""smithy.api#String""";
    "                },";
    "                ""contentHandling"": {";
    "                    ""target"": ""aws.apigateway#ContentHandling""";
    "                },";
    "                ""responseTemplates"": {";
    "                    ""target"": ""aws.apigateway#Templates""";
    "                },";
    "                ""responseParameters"": {";
    "                    ""target"": ""aws.apigateway#ResponseParameters""";
    "                }";
    "            },";
    "            ""traits"": {";
    "                ""smithy.api#documentation"": ""Defines a response and specifies parameter mappings."",";
    "                ""smithy.api#private"": {}";
    "            }";
    "        },";
    "        ""aws.apigateway#ResponseParameters"": {";
    "            ""type"": ""map"",";
    "            ""key"": {";
    "                ""target"": ""smithy.api#String""";
    "            },";
    "            ""value"": {";
    "                ""target"": ""smithy.api#String""";
    "            },";
    "            ""traits"": {";
    "                ""smithy.api#documentation"": ""Specifies parameter mappings for the response. Only the header and body parameters of the integration response can be mapped to the header parameters of the method."",";
    "                ""smithy.api#private"": {}";
    "            }";
    "        }";
    "    }";
    "}";
    ""]%string)) = true.
Proof. vm_compute. reflexivity. Qed.

(** atelier-json/tests/good/aws.auth.json is read. *)
Example aws_auth_json : is_ok (read (text ["{";
    "    ""smithy"": ""1.0"",";
    "    ""shapes"": {";
    "        ""aws.auth#sigv4"": {";
    "            ""type"": ""structure"",";
    "            ""members"": {";
    "                ""name"": {";
    "                    ""target"": ""smithy.api#String"",";
    "                    ""traits"": {";
    "                        ""smithy.api#required"": {},";
    "                        ""smithy.api#documentation"": ""The signature version 4 service signing name to use in the credential scope when signing requests. This value SHOULD match the `arnNamespace` property of the `aws.api#service-trait`."",";
    "                        ""smithy.api#externalDocumentation"": {";
    "                            ""Reference"": ""https://docs.aws.amazon.com/general/latest/gr/sigv4-create-string-to-sign.html""";
    "                        }";
    "                    }";
    "                }";
    "            },";
    "            ""traits"": {";
    "                ""smithy.api#trait"": {";
    "                    ""selector"": ""service""";
    "                },";
    "                ""smithy.api#authDefinition"": {";
    "                    ""traits"": [";
    "                        ""aws.auth#unsignedPayload""";
    "                    ]";
    "                },";
    "                ""smithy.api#documentation"": ""Signature Version 4 is the process to add authentication information to AWS requests sent by HTTP. For security, most requests to AWS must be signed with an access key, which consists of an access key ID and secret access key. These two keys are commonly referred to as your security credentials."",";
    "                ""smithy.api#externalDocumentation"": {";
    "                    ""Reference"": ""https://docs.aws.amazon.com/general/latest/gr/signature-version-4.html""";
    "                }";
    "            }";
    "        },";
    "        ""aws.auth#unsignedPayload"": {";
    "            ""type"": ""structure"",";
    "            ""traits"": {";
    "                ""smithy.api#trait"": {";
    "                    ""selector"": ""operation""";
    "                },";
    "                ""smithy.api#documentation"": ""Indicates that the request payload of a signed request is not to be used as part of the signature.""";
    "            }";
    "        },";
    "        ""aws.auth#cognitoUserPools"": {";
    "            ""type"": ""structure"",";
    "            ""members"": {";
    "                ""providerArns"": {";
    "                    ""target"": ""aws.auth#StringList"",";
    "                    ""traits"": {";
    "                        ""smithy.api#required"": {},";
    "                        ""smithy.api#documentation"": ""A list of the Amazon Cognito user pool ARNs. Each element is of this format: arn:aws:cognito-idp:{region}:{account_id}:userpool/{user_pool_id}.""";
    "                    }";
    "                }";
    "            },";
    "            ""traits"": {";
    "                ""smithy.api#trait"": {";
    "                    ""selector"": ""service""";
    "                },";
    "                ""smithy.api#authDefinition"": {},";
    "                ""smithy.api#documentation"": ""Configures an Amazon Cognito User Pools auth scheme."",";
    "                ""smithy.api#tags"": [";
    "                    ""internal""";
    "                ]";
    "            }";
    "        },";
    "        ""aws.auth#StringList"": {";
    "            ""type"": ""list"",";
    "            ""member"": {";
    "                ""target"": ""smithy.api#String""";
    "            },";
    "            ""traits"": {";
    "                ""smithy.api#private"": {}";
    "            }";
    "        }";
    "    }";
    "}";
    ""]%string)) = true.
Proof. vm_compute. reflexivity. Qed.

(** atelier-json/tests/good/aws.iam.json is read. *)
Example aws_iam_json : is_ok (read (text ["{";
    "    ""smithy"": ""1.0"",";
    "    ""shapes"": {";
    "        ""aws.iam#actionPermissionDescription"": {";
    "            ""type"": ""string"",";
    "            ""traits"": {";
    "                ""smithy.api#trait"": {";
    "                    ""selector"": ""operation""";
    "                },";
    "                ""smithy.api#documentation"": ""A brief description of what granting the user permission to invoke an operation would entail. This description should begin with something similar to 'Enables the user to...' or 'Grants permission to...'""";
    "            }";
    "        },";
    "        ""aws.iam#defineConditionKeys"": {";
    "            ""type"": ""map"",";
    "            ""key"": {";
    "                ""target"": ""aws.iam#IamIdentifier""";
    "            },";
    "            ""value"": {";
    "                ""target"": ""aws.iam#ConditionKeyDefinition""";
    "            },";
    "            ""traits"": {";
    "                ""smithy.api#trait"": {";
    "                    ""selector"": ""service""";
    "                },";
    "                ""smithy.api#documentation"": ""Defines the set of condition keys that appear within a service in addition to inferred and global condition keys.""";
    "            }";
    "        },";
    "        ""aws.iam#conditionKeys"": {";
    "            ""type"": ""list"",";
    "            ""member"": {";
    "                ""target"": ""aws.iam#IamIdentifier""";
    "            },";
    "            ""traits"": {";
    "                ""smithy.api#trait"": {";
    "                    ""selector"": "":test(resource, operation)""";
    "                },";
    "                ""smithy.api#documentation"": ""Applies condition keys by name to a resource or operation.""";
    "            }";
    "        },";
    "        ""aws.iam#disableConditionKeyInference"": {";
    "            ""type"": ""structure"",";
    "            ""traits"": {";
    "                ""smithy.api#trait"": {";
    "                    ""selector"": ""resource""";
    "                },";
    "                ""smithy.api#documentation"": ""Disables the automatic inference of condition keys of a resource.""";
    "            }";
    "        },";
    "        ""aws.iam#requiredActions"": {";
    "            ""type"": ""list"",";
    "            ""member"": {";
    "                ""target"": ""aws.iam#IamIdentifier""";
    "            },";
    "            ""traits"": {";
    "                ""smithy.api#trait"": {";
    "                    ""selector"": ""operation""";
    "                },";
    "                ""smithy.api#documentation"": ""Other actions that the invoker must be authorized to perform when executing the targeted operation.""";
    "            }";
    "        },";
    "        ""aws.iam#IamIdentifier"": {";
    "            ""type"": ""string"",";
    "            ""traits"": {";
    "                ""smithy.api#private"": {},";
    "                ""smithy.api#pattern"": ""^([A-Za-z0-9][A-Za-z0-9-\\.]{0,62}:[^:]+)$""";
    "            }";
    "        },";
    "        ""aws.iam#ConditionKeyDefinition"": {";
    "            ""type"": ""structure"",";
    "            ""members"": {";
    "                ""documentation"": {";
    "                    ""target"": ""smithy.api#String""";
    "                },";
    "                ""externalDocumentation"": {";
    "                    ""target"": ""smithy.api#String""";
    "                },";
    "                ""type"": {";
    "                    ""target"": ""aws.iam#ConditionKeyType"",";
    "                    ""traits"": {";
    "                        ""smithy.api#required"": {}";
    "                    }";
    "                }";
    "            },";
    "            ""traits"": {";
    "                ""smithy.api#private"": {}";
    "            }";
    "        },";
    "        ""aws.iam#ConditionKeyType"": {";
    "            ""type"": ""string"",";
    "            ""traits"": {";
    "                ""smithy.api#private"": {},";
    "                ""smithy.api#documentation"": ""The IAM policy type of the value that will supplied for this context key"",";
    "                ""smithy.api#enum"": [";
    "                    {""value"": ""ARN""},";
    "                    {""value"": ""ArrayOfARN""},";
    "                    {""value"": ""Binary""},";
    "                    {""value"": ""ArrayOfBinary""},";
    "                    {""value"": ""String""},";
    "                    {""value"": ""ArrayOfString""},";
    "                    {""value"": ""Numeric""},";
    "                    {""value"": ""ArrayOfNumeric""},";
    "                    {""value"": ""Date""},";
    "                    {""value"": ""ArrayOfDate""},";
    "                    {""value"": ""Bool""},";
    "                    {""value"": ""ArrayOfBool""},";
    "                    {""value"": ""IPAddress""},";
    "                    {""value"": ""ArrayOfIPAddress""}";
    "                ]";
    "            }";
    "        }";
    "    }";
    "}";
    ""]%string)) = true.
Proof. vm_compute. reflexivity. Qed.

(** atelier-json/tests/good/aws.protocols.json is read. *)
Example aws_protocols_json : is_ok (read (text ["{";
    "    ""smithy"": ""1.0"",";
    "    ""shapes"": {";
    "        ""aws.protocols#restJson1"": {";
    "            ""type"": ""structure"",";
    "            ""members"": {";
    "                ""http"": {";
    "                    ""target"": ""aws.protocols#StringList""";
    "                },";
    "                ""eventStreamHttp"": {";
    "                    ""target"": ""aws.protocols#StringList""";
    "                }";
    "            },";
    "            ""traits"": {";
    "                ""smithy.api#trait"": {";
    "                    ""selector"": ""service""";
    "                },";
    "                ""smithy.api#protocolDefinition"": {";
    "                    ""traits"": [";
    "                        ""smithy.api#cors"",";
    "                        ""smithy.api#endpoint"",";
    "                        ""smithy.api#hostLabel"",";
    "                        ""smithy.api#http"",";
    "                        ""smithy.api#httpError"",";
    "                        ""smithy.api#httpHeader"",";
    "                        ""smithy.api#httpLabel"",";
    "                        ""smithy.api#httpPayload"",";
    "                        ""smithy.api#httpPrefixHeaders"",";
    "                        ""smithy.api#httpQuery"",";
    "                        ""smithy.api#jsonName"",";
    "                        ""smithy.api#timestampFormat""";
    "                    ]";
    "                },";
    "                ""smithy.api#documentation"": ""A RESTful protocol that sends JSON in structured payloads.""";
    "            }";
    "        },";
    "        ""aws.protocols#restXml"": {";
    "            ""type"": ""structure"",";
    "            ""members"": {";
    "                ""http"": {";
    "                    ""target"": ""aws.protocols#StringList""";
    "                },";
    "                ""eventStreamHttp"": {";
    "                    ""target"": ""aws.protocols#StringList""";
    "                },";
    "                ""noErrorWrapping"": {";
    "                    ""target"": ""smithy.api#Boolean"",";
    "                    ""traits"": {";
    "                        ""smithy.api#documentation"": ""Disables the serialization wrapping of error properties in an 'Error' XML element."",";
    "                        ""smithy.api#deprecated"": {}";
    "                    }";
    "                }";
    "            },";
    "            ""traits"": {";
    "                ""smithy.api#trait"": {";
    "                    ""selector"": ""service""";
    "                },";
    "                ""smithy.api#protocolDefinition"": {";
    "                    ""noInlineDocumentSupport"": true,";
    "                    ""traits"": [";
    "                        ""smithy.api#httpError"",";
    "                        ""smithy.api#httpHeader"",";
    "                        ""smithy.api#httpLabel"",";
    "                        ""smithy.api#httpPayload"",";
    "                        ""smithy.api#httpPrefixHeaders"",";
    "                        ""smithy.api#httpQuery"",";
    "                        ""smithy.api#xmlAttribute"",";
    "                        ""smithy.api#xmlFlattened"",";
    "                        ""smithy.api#xmlName"",";
    "                        ""smithy.api#xmlNamespace""";
    "                    ]";
    "                },";
    "                ""smithy.api#documentation"": ""A RESTful protocol that sends XML in structured payloads."",";
    "                ""smithy.api#deprecated"": {}";
    "            }";
    "        },";
    "        ""aws.protocols#awsJson1_0"": {";
    "            ""type"": ""structure"",";
    "            ""members"": {";
    "                ""http"": {";
    "                    ""target"": ""aws.protocols#StringList""";
    "                },";
    "                ""eventStreamHttp"": {";
    "                    ""target"": ""aws.protocols#StringList""";
    "                }";
    "            },";
    "            ""traits"": {";
    "                ""smithy.api#trait"": {";
    "                    ""selector"": ""service""";
    "                },";
    "                ""smithy.api#protocolDefinition"": {";
    "                    ""traits"": [";
    "                        ""smithy.api#jsonName""";
    "                    ]";
    "                },";
    "                ""smithy.api#documentation"": ""An RPC-based protocol that sends JSON payloads. This protocol does not use HTTP binding traits.""";
    "            }";
    "        },";
    "        ""aws.protocols#awsJson1_1"": {";
    "            ""type"": ""structure"",";
    "            ""members"": {";
    "                ""http"": {";
    "                    ""target"": ""aws.protocols#StringList""";
    "                },";
    "                ""eventStreamHttp"": {";
    "                    ""target"": ""aws.protocols#StringList""";
    "                }";
    "            },";
    "            ""traits"": {";
    "                ""smithy.api#trait"": {";
    "                    ""selector"": ""service""";
    "                },";
    "                ""smithy.api#protocolDefinition"": {";
    "                    ""traits"": [";
    "                        ""smithy.api#jsonName""";
    "                    ]";
    "                },";
    "                ""smithy.api#documentation"": ""An RPC-based protocol that sends JSON payloads. This protocol does not use HTTP binding traits.""";
    "            }";
    "        },";
    "        ""aws.protocols#awsQuery"": {";
    "            ""type"": ""structure"",";
    "            ""traits"": {";
    "                ""smithy.api#trait"": {";
    "                    ""selector"": ""service""";
    "                },";
    "                ""smithy.api#protocolDefinition"": {";
    "                    ""noInlineDocumentSupport"": true,";
    "                    ""traits"": [";
    "                        ""smithy.api#xmlAttribute"",";
    "                        ""smithy.api#xmlFlattened"",";
    "                        ""smithy.api#xmlName"",";
    "                        ""smithy.api#xmlNamespace""";
    "                    ]";
    "                },";
    "                ""smithy.api#documentation"": ""An RPC-based protocol that sends query string requests and XML responses. This protocol does not use HTTP binding traits."",";
    "                ""smithy.api#deprecated"": {}";
    "            }";
    "        },";
    "        ""aws.protocols#ec2Query"": {";
    "            ""type"": ""structure"",";
    "            ""traits"": {";
    "                ""smithy.api#trait"": {";
    "                    ""selector"": ""service""";
    "                },";
    "                ""smithy.api#protocolDefinition"": {";
    "                    ""noInlineDocumentSupport"": true,";
    "                    ""traits"": [";
    "                        ""aws.protocols#ec2QueryName"",";
    "                        ""smithy.api#xmlAttribute"",";
    "                        ""smithy.api#xmlFlattened"",";
    "                        ""smithy.api#xmlName"",";
    "                        ""smithy.api#xmlNamespace""";
    "                    ]";
    "                },";
    "                ""smithy.api#documentation"": ""An RPC-based protocol that sends Amazon EC2 formatted query string requests and XML responses. This protocol does not use HTTP binding traits."",";
    "                ""smithy.api#deprecated"": {}";
    "            }";
    "        },";
    "        ""aws.protocols#ec2QueryName"": {";
    "            ""type"": ""string"",";
    "            ""traits"": {";
    "                ""smithy.api#trait"": {";
    "                    ""selector"": ""structure > member""";
    "                },";
    "                ""smithy.api#documentation"": ""Indicates the serialized name of a structure member when that structure is serialized for the input of an EC2 operation."",";
    "                ""smithy.api#pattern"": ""^[a-zA-Z_][a-zA-Z_0-9-]*$""";
    "            }";
    "        },";
    "        ""aws.protocols#StringList"": {";
    "            ""type"": ""list"",";
    "            ""member"": {";
    "                ""target"": ""smithy.api#String""";
    "            },";
    "            ""traits"": {";
    "                ""smithy.api#private"": {}";
    "            }";
    "        }";
    "    }";
    "}";
    ""]%string)) = true.
Proof. vm_compute. reflexivity. Qed.
