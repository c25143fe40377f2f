(** The exported functions of package assert, and the methods of Assertions that call them (test/testify/assert).  Both tables are transcribed from the code row by row. *)
From Verif Require Import Base.

(** A parameter: its name and its type; that of a variadic parameter begins with ... (assertion_forward.go:14) *)
Definition param : Type := bytes * bytes.
(** Whether the last parameter is variadic (assertion_forward.go:14) *)
Definition variadic (ps : list param) : bool := match snd (last ps ([], [])) with 46 :: 46 :: 46 :: _ => true | _ => false end.
(** A function: its name and its parameters (assertions.go:304) *)
Record func := mkFunc { fname : bytes; fparams : list param }.
(** What is passed to a call: a.t, or a parameter of the method (assertion_forward.go:15) *)
Inductive expr := ET | EP (name : bytes).
(** A method: its name and its parameters, the function it calls, with what, and whether the last is followed by ... (assertion_forward.go:14-16) *)
Record method := mkMethod { mname : bytes; mparams : list param; mcallee : bytes; margs : list expr; mspread : bool }.

(** The exported functions of assertions.go:39-1241, http_assertions.go:28-127, forward_assertions.go:10-14 and assertion_format.go:15-349.  Results are left out: all that take a TestingT give a bool *)
Definition functions : list func := [
  (** assertions.go:39-55 *) mkFunc (bs "ObjectsAreEqual") [(bs "expected", bs "interface{}"); (bs "actual", bs "interface{}")];
  (** assertions.go:59-75 *) mkFunc (bs "ObjectsAreEqualValues") [(bs "expected", bs "interface{}"); (bs "actual", bs "interface{}")];
  (** assertions.go:84-141 *) mkFunc (bs "CallerInfo") [];
  (** assertions.go:210-225 *) mkFunc (bs "FailNow") [(bs "t", bs "TestingT"); (bs "failureMessage", bs "string"); (bs "msgAndArgs", bs "...interface{}")];
  (** assertions.go:228-241 *) mkFunc (bs "Fail") [(bs "t", bs "TestingT"); (bs "failureMessage", bs "string"); (bs "msgAndArgs", bs "...interface{}")];
  (** assertions.go:274-285 *) mkFunc (bs "Implements") [(bs "t", bs "TestingT"); (bs "interfaceObject", bs "interface{}"); (bs "object", bs "interface{}"); (bs "msgAndArgs", bs "...interface{}")];
  (** assertions.go:288-295 *) mkFunc (bs "IsType") [(bs "t", bs "TestingT"); (bs "expectedType", bs "interface{}"); (bs "object", bs "interface{}"); (bs "msgAndArgs", bs "...interface{}")];
  (** assertions.go:304-320 *) mkFunc (bs "Equal") [(bs "t", bs "TestingT"); (bs "expected", bs "interface{}"); (bs "actual", bs "interface{}"); (bs "msgAndArgs", bs "...interface{}")];
  (** assertions.go:342-354 *) mkFunc (bs "EqualValues") [(bs "t", bs "TestingT"); (bs "expected", bs "interface{}"); (bs "actual", bs "interface{}"); (bs "msgAndArgs", bs "...interface{}")];
  (** assertions.go:359-370 *) mkFunc (bs "Exactly") [(bs "t", bs "TestingT"); (bs "expected", bs "interface{}"); (bs "actual", bs "interface{}"); (bs "msgAndArgs", bs "...interface{}")];
  (** assertions.go:375-380 *) mkFunc (bs "NotNil") [(bs "t", bs "TestingT"); (bs "object", bs "interface{}"); (bs "msgAndArgs", bs "...interface{}")];
  (** assertions.go:400-405 *) mkFunc (bs "Nil") [(bs "t", bs "TestingT"); (bs "object", bs "interface{}"); (bs "msgAndArgs", bs "...interface{}")];
  (** assertions.go:439-448 *) mkFunc (bs "Empty") [(bs "t", bs "TestingT"); (bs "object", bs "interface{}"); (bs "msgAndArgs", bs "...interface{}")];
  (** assertions.go:456-465 *) mkFunc (bs "NotEmpty") [(bs "t", bs "TestingT"); (bs "object", bs "interface{}"); (bs "msgAndArgs", bs "...interface{}")];
  (** assertions.go:483-493 *) mkFunc (bs "Len") [(bs "t", bs "TestingT"); (bs "object", bs "interface{}"); (bs "length", bs "int"); (bs "msgAndArgs", bs "...interface{}")];
  (** assertions.go:498-506 *) mkFunc (bs "True") [(bs "t", bs "TestingT"); (bs "value", bs "bool"); (bs "msgAndArgs", bs "...interface{}")];
  (** assertions.go:511-519 *) mkFunc (bs "False") [(bs "t", bs "TestingT"); (bs "value", bs "bool"); (bs "msgAndArgs", bs "...interface{}")];
  (** assertions.go:527-539 *) mkFunc (bs "NotEqual") [(bs "t", bs "TestingT"); (bs "expected", bs "interface{}"); (bs "actual", bs "interface{}"); (bs "msgAndArgs", bs "...interface{}")];
  (** assertions.go:585-597 *) mkFunc (bs "Contains") [(bs "t", bs "TestingT"); (bs "s", bs "interface{}"); (bs "contains", bs "interface{}"); (bs "msgAndArgs", bs "...interface{}")];
  (** assertions.go:605-617 *) mkFunc (bs "NotContains") [(bs "t", bs "TestingT"); (bs "s", bs "interface{}"); (bs "contains", bs "interface{}"); (bs "msgAndArgs", bs "...interface{}")];
  (** assertions.go:623-658 *) mkFunc (bs "Subset") [(bs "t", bs "TestingT"); (bs "list", bs "interface{}"); (bs "subset", bs "interface{}"); (bs "msgAndArgs", bs "...interface{}")];
  (** assertions.go:664-699 *) mkFunc (bs "NotSubset") [(bs "t", bs "TestingT"); (bs "list", bs "interface{}"); (bs "subset", bs "interface{}"); (bs "msgAndArgs", bs "...interface{}")];
  (** assertions.go:706-753 *) mkFunc (bs "ElementsMatch") [(bs "t", bs "TestingT"); (bs "listA", bs "interface{}"); (bs "listB", bs "interface{}"); (bs "msgAndArgs", bs "...interface{}")];
  (** assertions.go:756-762 *) mkFunc (bs "Condition") [(bs "t", bs "TestingT"); (bs "comp", bs "Comparison"); (bs "msgAndArgs", bs "...interface{}")];
  (** assertions.go:793-800 *) mkFunc (bs "Panics") [(bs "t", bs "TestingT"); (bs "f", bs "PanicTestFunc"); (bs "msgAndArgs", bs "...interface{}")];
  (** assertions.go:806-817 *) mkFunc (bs "PanicsWithValue") [(bs "t", bs "TestingT"); (bs "expected", bs "interface{}"); (bs "f", bs "PanicTestFunc"); (bs "msgAndArgs", bs "...interface{}")];
  (** assertions.go:822-829 *) mkFunc (bs "NotPanics") [(bs "t", bs "TestingT"); (bs "f", bs "PanicTestFunc"); (bs "msgAndArgs", bs "...interface{}")];
  (** assertions.go:834-842 *) mkFunc (bs "WithinDuration") [(bs "t", bs "TestingT"); (bs "expected", bs "time.Time"); (bs "actual", bs "time.Time"); (bs "delta", bs "time.Duration"); (bs "msgAndArgs", bs "...interface{}")];
  (** assertions.go:883-906 *) mkFunc (bs "InDelta") [(bs "t", bs "TestingT"); (bs "expected", bs "interface{}"); (bs "actual", bs "interface{}"); (bs "delta", bs "float64"); (bs "msgAndArgs", bs "...interface{}")];
  (** assertions.go:909-927 *) mkFunc (bs "InDeltaSlice") [(bs "t", bs "TestingT"); (bs "expected", bs "interface{}"); (bs "actual", bs "interface{}"); (bs "delta", bs "float64"); (bs "msgAndArgs", bs "...interface{}")];
  (** assertions.go:930-968 *) mkFunc (bs "InDeltaMapValues") [(bs "t", bs "TestingT"); (bs "expected", bs "interface{}"); (bs "actual", bs "interface{}"); (bs "delta", bs "float64"); (bs "msgAndArgs", bs "...interface{}")];
  (** assertions.go:987-998 *) mkFunc (bs "InEpsilon") [(bs "t", bs "TestingT"); (bs "expected", bs "interface{}"); (bs "actual", bs "interface{}"); (bs "epsilon", bs "float64"); (bs "msgAndArgs", bs "...interface{}")];
  (** assertions.go:1001-1019 *) mkFunc (bs "InEpsilonSlice") [(bs "t", bs "TestingT"); (bs "expected", bs "interface{}"); (bs "actual", bs "interface{}"); (bs "epsilon", bs "float64"); (bs "msgAndArgs", bs "...interface{}")];
  (** assertions.go:1031-1037 *) mkFunc (bs "NoError") [(bs "t", bs "TestingT"); (bs "err", bs "error"); (bs "msgAndArgs", bs "...interface{}")];
  (** assertions.go:1045-1052 *) mkFunc (bs "Error") [(bs "t", bs "TestingT"); (bs "err", bs "error"); (bs "msgAndArgs", bs "...interface{}")];
  (** assertions.go:1059-1072 *) mkFunc (bs "EqualError") [(bs "t", bs "TestingT"); (bs "theError", bs "error"); (bs "errString", bs "string"); (bs "msgAndArgs", bs "...interface{}")];
  (** assertions.go:1092-1101 *) mkFunc (bs "Regexp") [(bs "t", bs "TestingT"); (bs "rx", bs "interface{}"); (bs "str", bs "interface{}"); (bs "msgAndArgs", bs "...interface{}")];
  (** assertions.go:1107-1116 *) mkFunc (bs "NotRegexp") [(bs "t", bs "TestingT"); (bs "rx", bs "interface{}"); (bs "str", bs "interface{}"); (bs "msgAndArgs", bs "...interface{}")];
  (** assertions.go:1119-1124 *) mkFunc (bs "Zero") [(bs "t", bs "TestingT"); (bs "i", bs "interface{}"); (bs "msgAndArgs", bs "...interface{}")];
  (** assertions.go:1127-1132 *) mkFunc (bs "NotZero") [(bs "t", bs "TestingT"); (bs "i", bs "interface{}"); (bs "msgAndArgs", bs "...interface{}")];
  (** assertions.go:1135-1147 *) mkFunc (bs "FileExists") [(bs "t", bs "TestingT"); (bs "path", bs "string"); (bs "msgAndArgs", bs "...interface{}")];
  (** assertions.go:1150-1162 *) mkFunc (bs "DirExists") [(bs "t", bs "TestingT"); (bs "path", bs "string"); (bs "msgAndArgs", bs "...interface{}")];
  (** assertions.go:1167-1179 *) mkFunc (bs "JSONEq") [(bs "t", bs "TestingT"); (bs "expected", bs "string"); (bs "actual", bs "string"); (bs "msgAndArgs", bs "...interface{}")];
  (** http_assertions.go:28-41 *) mkFunc (bs "HTTPSuccess") [(bs "t", bs "TestingT"); (bs "handler", bs "http.HandlerFunc"); (bs "method", bs "string"); (bs "url", bs "string"); (bs "values", bs "url.Values"); (bs "msgAndArgs", bs "...interface{}")];
  (** http_assertions.go:48-61 *) mkFunc (bs "HTTPRedirect") [(bs "t", bs "TestingT"); (bs "handler", bs "http.HandlerFunc"); (bs "method", bs "string"); (bs "url", bs "string"); (bs "values", bs "url.Values"); (bs "msgAndArgs", bs "...interface{}")];
  (** http_assertions.go:68-81 *) mkFunc (bs "HTTPError") [(bs "t", bs "TestingT"); (bs "handler", bs "http.HandlerFunc"); (bs "method", bs "string"); (bs "url", bs "string"); (bs "values", bs "url.Values"); (bs "msgAndArgs", bs "...interface{}")];
  (** http_assertions.go:85-93 *) mkFunc (bs "HTTPBody") [(bs "handler", bs "http.HandlerFunc"); (bs "method", bs "string"); (bs "url", bs "string"); (bs "values", bs "url.Values")];
  (** http_assertions.go:101-110 *) mkFunc (bs "HTTPBodyContains") [(bs "t", bs "TestingT"); (bs "handler", bs "http.HandlerFunc"); (bs "method", bs "string"); (bs "url", bs "string"); (bs "values", bs "url.Values"); (bs "str", bs "interface{}"); (bs "msgAndArgs", bs "...interface{}")];
  (** http_assertions.go:118-127 *) mkFunc (bs "HTTPBodyNotContains") [(bs "t", bs "TestingT"); (bs "handler", bs "http.HandlerFunc"); (bs "method", bs "string"); (bs "url", bs "string"); (bs "values", bs "url.Values"); (bs "str", bs "interface{}"); (bs "msgAndArgs", bs "...interface{}")];
  (** forward_assertions.go:10-14 *) mkFunc (bs "New") [(bs "t", bs "TestingT")];
  (** assertion_format.go:15-17 *) mkFunc (bs "Conditionf") [(bs "t", bs "TestingT"); (bs "comp", bs "Comparison"); (bs "msg", bs "string"); (bs "args", bs "...interface{}")];
  (** assertion_format.go:25-27 *) mkFunc (bs "Containsf") [(bs "t", bs "TestingT"); (bs "s", bs "interface{}"); (bs "contains", bs "interface{}"); (bs "msg", bs "string"); (bs "args", bs "...interface{}")];
  (** assertion_format.go:30-32 *) mkFunc (bs "DirExistsf") [(bs "t", bs "TestingT"); (bs "path", bs "string"); (bs "msg", bs "string"); (bs "args", bs "...interface{}")];
  (** assertion_format.go:39-41 *) mkFunc (bs "ElementsMatchf") [(bs "t", bs "TestingT"); (bs "listA", bs "interface{}"); (bs "listB", bs "interface{}"); (bs "msg", bs "string"); (bs "args", bs "...interface{}")];
  (** assertion_format.go:47-49 *) mkFunc (bs "Emptyf") [(bs "t", bs "TestingT"); (bs "object", bs "interface{}"); (bs "msg", bs "string"); (bs "args", bs "...interface{}")];
  (** assertion_format.go:58-60 *) mkFunc (bs "Equalf") [(bs "t", bs "TestingT"); (bs "expected", bs "interface{}"); (bs "actual", bs "interface{}"); (bs "msg", bs "string"); (bs "args", bs "...interface{}")];
  (** assertion_format.go:67-69 *) mkFunc (bs "EqualErrorf") [(bs "t", bs "TestingT"); (bs "theError", bs "error"); (bs "errString", bs "string"); (bs "msg", bs "string"); (bs "args", bs "...interface{}")];
  (** assertion_format.go:75-77 *) mkFunc (bs "EqualValuesf") [(bs "t", bs "TestingT"); (bs "expected", bs "interface{}"); (bs "actual", bs "interface{}"); (bs "msg", bs "string"); (bs "args", bs "...interface{}")];
  (** assertion_format.go:85-87 *) mkFunc (bs "Errorf") [(bs "t", bs "TestingT"); (bs "err", bs "error"); (bs "msg", bs "string"); (bs "args", bs "...interface{}")];
  (** assertion_format.go:92-94 *) mkFunc (bs "Exactlyf") [(bs "t", bs "TestingT"); (bs "expected", bs "interface{}"); (bs "actual", bs "interface{}"); (bs "msg", bs "string"); (bs "args", bs "...interface{}")];
  (** assertion_format.go:97-99 *) mkFunc (bs "Failf") [(bs "t", bs "TestingT"); (bs "failureMessage", bs "string"); (bs "msg", bs "string"); (bs "args", bs "...interface{}")];
  (** assertion_format.go:102-104 *) mkFunc (bs "FailNowf") [(bs "t", bs "TestingT"); (bs "failureMessage", bs "string"); (bs "msg", bs "string"); (bs "args", bs "...interface{}")];
  (** assertion_format.go:109-111 *) mkFunc (bs "Falsef") [(bs "t", bs "TestingT"); (bs "value", bs "bool"); (bs "msg", bs "string"); (bs "args", bs "...interface{}")];
  (** assertion_format.go:114-116 *) mkFunc (bs "FileExistsf") [(bs "t", bs "TestingT"); (bs "path", bs "string"); (bs "msg", bs "string"); (bs "args", bs "...interface{}")];
  (** assertion_format.go:124-126 *) mkFunc (bs "HTTPBodyContainsf") [(bs "t", bs "TestingT"); (bs "handler", bs "http.HandlerFunc"); (bs "method", bs "string"); (bs "url", bs "string"); (bs "values", bs "url.Values"); (bs "str", bs "interface{}"); (bs "msg", bs "string"); (bs "args", bs "...interface{}")];
  (** assertion_format.go:134-136 *) mkFunc (bs "HTTPBodyNotContainsf") [(bs "t", bs "TestingT"); (bs "handler", bs "http.HandlerFunc"); (bs "method", bs "string"); (bs "url", bs "string"); (bs "values", bs "url.Values"); (bs "str", bs "interface{}"); (bs "msg", bs "string"); (bs "args", bs "...interface{}")];
  (** assertion_format.go:143-145 *) mkFunc (bs "HTTPErrorf") [(bs "t", bs "TestingT"); (bs "handler", bs "http.HandlerFunc"); (bs "method", bs "string"); (bs "url", bs "string"); (bs "values", bs "url.Values"); (bs "msg", bs "string"); (bs "args", bs "...interface{}")];
  (** assertion_format.go:152-154 *) mkFunc (bs "HTTPRedirectf") [(bs "t", bs "TestingT"); (bs "handler", bs "http.HandlerFunc"); (bs "method", bs "string"); (bs "url", bs "string"); (bs "values", bs "url.Values"); (bs "msg", bs "string"); (bs "args", bs "...interface{}")];
  (** assertion_format.go:161-163 *) mkFunc (bs "HTTPSuccessf") [(bs "t", bs "TestingT"); (bs "handler", bs "http.HandlerFunc"); (bs "method", bs "string"); (bs "url", bs "string"); (bs "values", bs "url.Values"); (bs "msg", bs "string"); (bs "args", bs "...interface{}")];
  (** assertion_format.go:168-170 *) mkFunc (bs "Implementsf") [(bs "t", bs "TestingT"); (bs "interfaceObject", bs "interface{}"); (bs "object", bs "interface{}"); (bs "msg", bs "string"); (bs "args", bs "...interface{}")];
  (** assertion_format.go:175-177 *) mkFunc (bs "InDeltaf") [(bs "t", bs "TestingT"); (bs "expected", bs "interface{}"); (bs "actual", bs "interface{}"); (bs "delta", bs "float64"); (bs "msg", bs "string"); (bs "args", bs "...interface{}")];
  (** assertion_format.go:180-182 *) mkFunc (bs "InDeltaMapValuesf") [(bs "t", bs "TestingT"); (bs "expected", bs "interface{}"); (bs "actual", bs "interface{}"); (bs "delta", bs "float64"); (bs "msg", bs "string"); (bs "args", bs "...interface{}")];
  (** assertion_format.go:185-187 *) mkFunc (bs "InDeltaSlicef") [(bs "t", bs "TestingT"); (bs "expected", bs "interface{}"); (bs "actual", bs "interface{}"); (bs "delta", bs "float64"); (bs "msg", bs "string"); (bs "args", bs "...interface{}")];
  (** assertion_format.go:190-192 *) mkFunc (bs "InEpsilonf") [(bs "t", bs "TestingT"); (bs "expected", bs "interface{}"); (bs "actual", bs "interface{}"); (bs "epsilon", bs "float64"); (bs "msg", bs "string"); (bs "args", bs "...interface{}")];
  (** assertion_format.go:195-197 *) mkFunc (bs "InEpsilonSlicef") [(bs "t", bs "TestingT"); (bs "expected", bs "interface{}"); (bs "actual", bs "interface{}"); (bs "epsilon", bs "float64"); (bs "msg", bs "string"); (bs "args", bs "...interface{}")];
  (** assertion_format.go:200-202 *) mkFunc (bs "IsTypef") [(bs "t", bs "TestingT"); (bs "expectedType", bs "interface{}"); (bs "object", bs "interface{}"); (bs "msg", bs "string"); (bs "args", bs "...interface{}")];
  (** assertion_format.go:207-209 *) mkFunc (bs "JSONEqf") [(bs "t", bs "TestingT"); (bs "expected", bs "string"); (bs "actual", bs "string"); (bs "msg", bs "string"); (bs "args", bs "...interface{}")];
  (** assertion_format.go:215-217 *) mkFunc (bs "Lenf") [(bs "t", bs "TestingT"); (bs "object", bs "interface{}"); (bs "length", bs "int"); (bs "msg", bs "string"); (bs "args", bs "...interface{}")];
  (** assertion_format.go:222-224 *) mkFunc (bs "Nilf") [(bs "t", bs "TestingT"); (bs "object", bs "interface{}"); (bs "msg", bs "string"); (bs "args", bs "...interface{}")];
  (** assertion_format.go:232-234 *) mkFunc (bs "NoErrorf") [(bs "t", bs "TestingT"); (bs "err", bs "error"); (bs "msg", bs "string"); (bs "args", bs "...interface{}")];
  (** assertion_format.go:242-244 *) mkFunc (bs "NotContainsf") [(bs "t", bs "TestingT"); (bs "s", bs "interface{}"); (bs "contains", bs "interface{}"); (bs "msg", bs "string"); (bs "args", bs "...interface{}")];
  (** assertion_format.go:252-254 *) mkFunc (bs "NotEmptyf") [(bs "t", bs "TestingT"); (bs "object", bs "interface{}"); (bs "msg", bs "string"); (bs "args", bs "...interface{}")];
  (** assertion_format.go:262-264 *) mkFunc (bs "NotEqualf") [(bs "t", bs "TestingT"); (bs "expected", bs "interface{}"); (bs "actual", bs "interface{}"); (bs "msg", bs "string"); (bs "args", bs "...interface{}")];
  (** assertion_format.go:269-271 *) mkFunc (bs "NotNilf") [(bs "t", bs "TestingT"); (bs "object", bs "interface{}"); (bs "msg", bs "string"); (bs "args", bs "...interface{}")];
  (** assertion_format.go:276-278 *) mkFunc (bs "NotPanicsf") [(bs "t", bs "TestingT"); (bs "f", bs "PanicTestFunc"); (bs "msg", bs "string"); (bs "args", bs "...interface{}")];
  (** assertion_format.go:284-286 *) mkFunc (bs "NotRegexpf") [(bs "t", bs "TestingT"); (bs "rx", bs "interface{}"); (bs "str", bs "interface{}"); (bs "msg", bs "string"); (bs "args", bs "...interface{}")];
  (** assertion_format.go:292-294 *) mkFunc (bs "NotSubsetf") [(bs "t", bs "TestingT"); (bs "list", bs "interface{}"); (bs "subset", bs "interface{}"); (bs "msg", bs "string"); (bs "args", bs "...interface{}")];
  (** assertion_format.go:297-299 *) mkFunc (bs "NotZerof") [(bs "t", bs "TestingT"); (bs "i", bs "interface{}"); (bs "msg", bs "string"); (bs "args", bs "...interface{}")];
  (** assertion_format.go:304-306 *) mkFunc (bs "Panicsf") [(bs "t", bs "TestingT"); (bs "f", bs "PanicTestFunc"); (bs "msg", bs "string"); (bs "args", bs "...interface{}")];
  (** assertion_format.go:312-314 *) mkFunc (bs "PanicsWithValuef") [(bs "t", bs "TestingT"); (bs "expected", bs "interface{}"); (bs "f", bs "PanicTestFunc"); (bs "msg", bs "string"); (bs "args", bs "...interface{}")];
  (** assertion_format.go:320-322 *) mkFunc (bs "Regexpf") [(bs "t", bs "TestingT"); (bs "rx", bs "interface{}"); (bs "str", bs "interface{}"); (bs "msg", bs "string"); (bs "args", bs "...interface{}")];
  (** assertion_format.go:328-330 *) mkFunc (bs "Subsetf") [(bs "t", bs "TestingT"); (bs "list", bs "interface{}"); (bs "subset", bs "interface{}"); (bs "msg", bs "string"); (bs "args", bs "...interface{}")];
  (** assertion_format.go:335-337 *) mkFunc (bs "Truef") [(bs "t", bs "TestingT"); (bs "value", bs "bool"); (bs "msg", bs "string"); (bs "args", bs "...interface{}")];
  (** assertion_format.go:342-344 *) mkFunc (bs "WithinDurationf") [(bs "t", bs "TestingT"); (bs "expected", bs "time.Time"); (bs "actual", bs "time.Time"); (bs "delta", bs "time.Duration"); (bs "msg", bs "string"); (bs "args", bs "...interface{}")];
  (** assertion_format.go:347-349 *) mkFunc (bs "Zerof") [(bs "t", bs "TestingT"); (bs "i", bs "interface{}"); (bs "msg", bs "string"); (bs "args", bs "...interface{}")]].
(** The methods: assertion_forward.go:14-686 *)
Definition methods : list method := [
  (** assertion_forward.go:15-17 *) mkMethod (bs "Condition") [(bs "comp", bs "Comparison"); (bs "msgAndArgs", bs "...interface{}")] (bs "Condition") [ET; EP (bs "comp"); EP (bs "msgAndArgs")] true;
  (** assertion_forward.go:20-22 *) mkMethod (bs "Conditionf") [(bs "comp", bs "Comparison"); (bs "msg", bs "string"); (bs "args", bs "...interface{}")] (bs "Conditionf") [ET; EP (bs "comp"); EP (bs "msg"); EP (bs "args")] true;
  (** assertion_forward.go:30-32 *) mkMethod (bs "Contains") [(bs "s", bs "interface{}"); (bs "contains", bs "interface{}"); (bs "msgAndArgs", bs "...interface{}")] (bs "Contains") [ET; EP (bs "s"); EP (bs "contains"); EP (bs "msgAndArgs")] true;
  (** assertion_forward.go:40-42 *) mkMethod (bs "Containsf") [(bs "s", bs "interface{}"); (bs "contains", bs "interface{}"); (bs "msg", bs "string"); (bs "args", bs "...interface{}")] (bs "Containsf") [ET; EP (bs "s"); EP (bs "contains"); EP (bs "msg"); EP (bs "args")] true;
  (** assertion_forward.go:45-47 *) mkMethod (bs "DirExists") [(bs "path", bs "string"); (bs "msgAndArgs", bs "...interface{}")] (bs "DirExists") [ET; EP (bs "path"); EP (bs "msgAndArgs")] true;
  (** assertion_forward.go:50-52 *) mkMethod (bs "DirExistsf") [(bs "path", bs "string"); (bs "msg", bs "string"); (bs "args", bs "...interface{}")] (bs "DirExistsf") [ET; EP (bs "path"); EP (bs "msg"); EP (bs "args")] true;
  (** assertion_forward.go:59-61 *) mkMethod (bs "ElementsMatch") [(bs "listA", bs "interface{}"); (bs "listB", bs "interface{}"); (bs "msgAndArgs", bs "...interface{}")] (bs "ElementsMatch") [ET; EP (bs "listA"); EP (bs "listB"); EP (bs "msgAndArgs")] true;
  (** assertion_forward.go:68-70 *) mkMethod (bs "ElementsMatchf") [(bs "listA", bs "interface{}"); (bs "listB", bs "interface{}"); (bs "msg", bs "string"); (bs "args", bs "...interface{}")] (bs "ElementsMatchf") [ET; EP (bs "listA"); EP (bs "listB"); EP (bs "msg"); EP (bs "args")] true;
  (** assertion_forward.go:76-78 *) mkMethod (bs "Empty") [(bs "object", bs "interface{}"); (bs "msgAndArgs", bs "...interface{}")] (bs "Empty") [ET; EP (bs "object"); EP (bs "msgAndArgs")] true;
  (** assertion_forward.go:84-86 *) mkMethod (bs "Emptyf") [(bs "object", bs "interface{}"); (bs "msg", bs "string"); (bs "args", bs "...interface{}")] (bs "Emptyf") [ET; EP (bs "object"); EP (bs "msg"); EP (bs "args")] true;
  (** assertion_forward.go:95-97 *) mkMethod (bs "Equal") [(bs "expected", bs "interface{}"); (bs "actual", bs "interface{}"); (bs "msgAndArgs", bs "...interface{}")] (bs "Equal") [ET; EP (bs "expected"); EP (bs "actual"); EP (bs "msgAndArgs")] true;
  (** assertion_forward.go:104-106 *) mkMethod (bs "EqualError") [(bs "theError", bs "error"); (bs "errString", bs "string"); (bs "msgAndArgs", bs "...interface{}")] (bs "EqualError") [ET; EP (bs "theError"); EP (bs "errString"); EP (bs "msgAndArgs")] true;
  (** assertion_forward.go:113-115 *) mkMethod (bs "EqualErrorf") [(bs "theError", bs "error"); (bs "errString", bs "string"); (bs "msg", bs "string"); (bs "args", bs "...interface{}")] (bs "EqualErrorf") [ET; EP (bs "theError"); EP (bs "errString"); EP (bs "msg"); EP (bs "args")] true;
  (** assertion_forward.go:121-123 *) mkMethod (bs "EqualValues") [(bs "expected", bs "interface{}"); (bs "actual", bs "interface{}"); (bs "msgAndArgs", bs "...interface{}")] (bs "EqualValues") [ET; EP (bs "expected"); EP (bs "actual"); EP (bs "msgAndArgs")] true;
  (** assertion_forward.go:129-131 *) mkMethod (bs "EqualValuesf") [(bs "expected", bs "interface{}"); (bs "actual", bs "interface{}"); (bs "msg", bs "string"); (bs "args", bs "...interface{}")] (bs "EqualValuesf") [ET; EP (bs "expected"); EP (bs "actual"); EP (bs "msg"); EP (bs "args")] true;
  (** assertion_forward.go:140-142 *) mkMethod (bs "Equalf") [(bs "expected", bs "interface{}"); (bs "actual", bs "interface{}"); (bs "msg", bs "string"); (bs "args", bs "...interface{}")] (bs "Equalf") [ET; EP (bs "expected"); EP (bs "actual"); EP (bs "msg"); EP (bs "args")] true;
  (** assertion_forward.go:150-152 *) mkMethod (bs "Error") [(bs "err", bs "error"); (bs "msgAndArgs", bs "...interface{}")] (bs "Error") [ET; EP (bs "err"); EP (bs "msgAndArgs")] true;
  (** assertion_forward.go:160-162 *) mkMethod (bs "Errorf") [(bs "err", bs "error"); (bs "msg", bs "string"); (bs "args", bs "...interface{}")] (bs "Errorf") [ET; EP (bs "err"); EP (bs "msg"); EP (bs "args")] true;
  (** assertion_forward.go:167-169 *) mkMethod (bs "Exactly") [(bs "expected", bs "interface{}"); (bs "actual", bs "interface{}"); (bs "msgAndArgs", bs "...interface{}")] (bs "Exactly") [ET; EP (bs "expected"); EP (bs "actual"); EP (bs "msgAndArgs")] true;
  (** assertion_forward.go:174-176 *) mkMethod (bs "Exactlyf") [(bs "expected", bs "interface{}"); (bs "actual", bs "interface{}"); (bs "msg", bs "string"); (bs "args", bs "...interface{}")] (bs "Exactlyf") [ET; EP (bs "expected"); EP (bs "actual"); EP (bs "msg"); EP (bs "args")] true;
  (** assertion_forward.go:179-181 *) mkMethod (bs "Fail") [(bs "failureMessage", bs "string"); (bs "msgAndArgs", bs "...interface{}")] (bs "Fail") [ET; EP (bs "failureMessage"); EP (bs "msgAndArgs")] true;
  (** assertion_forward.go:184-186 *) mkMethod (bs "FailNow") [(bs "failureMessage", bs "string"); (bs "msgAndArgs", bs "...interface{}")] (bs "FailNow") [ET; EP (bs "failureMessage"); EP (bs "msgAndArgs")] true;
  (** assertion_forward.go:189-191 *) mkMethod (bs "FailNowf") [(bs "failureMessage", bs "string"); (bs "msg", bs "string"); (bs "args", bs "...interface{}")] (bs "FailNowf") [ET; EP (bs "failureMessage"); EP (bs "msg"); EP (bs "args")] true;
  (** assertion_forward.go:194-196 *) mkMethod (bs "Failf") [(bs "failureMessage", bs "string"); (bs "msg", bs "string"); (bs "args", bs "...interface{}")] (bs "Failf") [ET; EP (bs "failureMessage"); EP (bs "msg"); EP (bs "args")] true;
  (** assertion_forward.go:201-203 *) mkMethod (bs "False") [(bs "value", bs "bool"); (bs "msgAndArgs", bs "...interface{}")] (bs "False") [ET; EP (bs "value"); EP (bs "msgAndArgs")] true;
  (** assertion_forward.go:208-210 *) mkMethod (bs "Falsef") [(bs "value", bs "bool"); (bs "msg", bs "string"); (bs "args", bs "...interface{}")] (bs "Falsef") [ET; EP (bs "value"); EP (bs "msg"); EP (bs "args")] true;
  (** assertion_forward.go:213-215 *) mkMethod (bs "FileExists") [(bs "path", bs "string"); (bs "msgAndArgs", bs "...interface{}")] (bs "FileExists") [ET; EP (bs "path"); EP (bs "msgAndArgs")] true;
  (** assertion_forward.go:218-220 *) mkMethod (bs "FileExistsf") [(bs "path", bs "string"); (bs "msg", bs "string"); (bs "args", bs "...interface{}")] (bs "FileExistsf") [ET; EP (bs "path"); EP (bs "msg"); EP (bs "args")] true;
  (** assertion_forward.go:228-230 *) mkMethod (bs "HTTPBodyContains") [(bs "handler", bs "http.HandlerFunc"); (bs "method", bs "string"); (bs "url", bs "string"); (bs "values", bs "url.Values"); (bs "str", bs "interface{}"); (bs "msgAndArgs", bs "...interface{}")] (bs "HTTPBodyContains") [ET; EP (bs "handler"); EP (bs "method"); EP (bs "url"); EP (bs "values"); EP (bs "str"); EP (bs "msgAndArgs")] true;
  (** assertion_forward.go:238-240 *) mkMethod (bs "HTTPBodyContainsf") [(bs "handler", bs "http.HandlerFunc"); (bs "method", bs "string"); (bs "url", bs "string"); (bs "values", bs "url.Values"); (bs "str", bs "interface{}"); (bs "msg", bs "string"); (bs "args", bs "...interface{}")] (bs "HTTPBodyContainsf") [ET; EP (bs "handler"); EP (bs "method"); EP (bs "url"); EP (bs "values"); EP (bs "str"); EP (bs "msg"); EP (bs "args")] true;
  (** assertion_forward.go:248-250 *) mkMethod (bs "HTTPBodyNotContains") [(bs "handler", bs "http.HandlerFunc"); (bs "method", bs "string"); (bs "url", bs "string"); (bs "values", bs "url.Values"); (bs "str", bs "interface{}"); (bs "msgAndArgs", bs "...interface{}")] (bs "HTTPBodyNotContains") [ET; EP (bs "handler"); EP (bs "method"); EP (bs "url"); EP (bs "values"); EP (bs "str"); EP (bs "msgAndArgs")] true;
  (** assertion_forward.go:258-260 *) mkMethod (bs "HTTPBodyNotContainsf") [(bs "handler", bs "http.HandlerFunc"); (bs "method", bs "string"); (bs "url", bs "string"); (bs "values", bs "url.Values"); (bs "str", bs "interface{}"); (bs "msg", bs "string"); (bs "args", bs "...interface{}")] (bs "HTTPBodyNotContainsf") [ET; EP (bs "handler"); EP (bs "method"); EP (bs "url"); EP (bs "values"); EP (bs "str"); EP (bs "msg"); EP (bs "args")] true;
  (** assertion_forward.go:267-269 *) mkMethod (bs "HTTPError") [(bs "handler", bs "http.HandlerFunc"); (bs "method", bs "string"); (bs "url", bs "string"); (bs "values", bs "url.Values"); (bs "msgAndArgs", bs "...interface{}")] (bs "HTTPError") [ET; EP (bs "handler"); EP (bs "method"); EP (bs "url"); EP (bs "values"); EP (bs "msgAndArgs")] true;
  (** assertion_forward.go:276-278 *) mkMethod (bs "HTTPErrorf") [(bs "handler", bs "http.HandlerFunc"); (bs "method", bs "string"); (bs "url", bs "string"); (bs "values", bs "url.Values"); (bs "msg", bs "string"); (bs "args", bs "...interface{}")] (bs "HTTPErrorf") [ET; EP (bs "handler"); EP (bs "method"); EP (bs "url"); EP (bs "values"); EP (bs "msg"); EP (bs "args")] true;
  (** assertion_forward.go:285-287 *) mkMethod (bs "HTTPRedirect") [(bs "handler", bs "http.HandlerFunc"); (bs "method", bs "string"); (bs "url", bs "string"); (bs "values", bs "url.Values"); (bs "msgAndArgs", bs "...interface{}")] (bs "HTTPRedirect") [ET; EP (bs "handler"); EP (bs "method"); EP (bs "url"); EP (bs "values"); EP (bs "msgAndArgs")] true;
  (** assertion_forward.go:294-296 *) mkMethod (bs "HTTPRedirectf") [(bs "handler", bs "http.HandlerFunc"); (bs "method", bs "string"); (bs "url", bs "string"); (bs "values", bs "url.Values"); (bs "msg", bs "string"); (bs "args", bs "...interface{}")] (bs "HTTPRedirectf") [ET; EP (bs "handler"); EP (bs "method"); EP (bs "url"); EP (bs "values"); EP (bs "msg"); EP (bs "args")] true;
  (** assertion_forward.go:303-305 *) mkMethod (bs "HTTPSuccess") [(bs "handler", bs "http.HandlerFunc"); (bs "method", bs "string"); (bs "url", bs "string"); (bs "values", bs "url.Values"); (bs "msgAndArgs", bs "...interface{}")] (bs "HTTPSuccess") [ET; EP (bs "handler"); EP (bs "method"); EP (bs "url"); EP (bs "values"); EP (bs "msgAndArgs")] true;
  (** assertion_forward.go:312-314 *) mkMethod (bs "HTTPSuccessf") [(bs "handler", bs "http.HandlerFunc"); (bs "method", bs "string"); (bs "url", bs "string"); (bs "values", bs "url.Values"); (bs "msg", bs "string"); (bs "args", bs "...interface{}")] (bs "HTTPSuccessf") [ET; EP (bs "handler"); EP (bs "method"); EP (bs "url"); EP (bs "values"); EP (bs "msg"); EP (bs "args")] true;
  (** assertion_forward.go:319-321 *) mkMethod (bs "Implements") [(bs "interfaceObject", bs "interface{}"); (bs "object", bs "interface{}"); (bs "msgAndArgs", bs "...interface{}")] (bs "Implements") [ET; EP (bs "interfaceObject"); EP (bs "object"); EP (bs "msgAndArgs")] true;
  (** assertion_forward.go:326-328 *) mkMethod (bs "Implementsf") [(bs "interfaceObject", bs "interface{}"); (bs "object", bs "interface{}"); (bs "msg", bs "string"); (bs "args", bs "...interface{}")] (bs "Implementsf") [ET; EP (bs "interfaceObject"); EP (bs "object"); EP (bs "msg"); EP (bs "args")] true;
  (** assertion_forward.go:333-335 *) mkMethod (bs "InDelta") [(bs "expected", bs "interface{}"); (bs "actual", bs "interface{}"); (bs "delta", bs "float64"); (bs "msgAndArgs", bs "...interface{}")] (bs "InDelta") [ET; EP (bs "expected"); EP (bs "actual"); EP (bs "delta"); EP (bs "msgAndArgs")] true;
  (** assertion_forward.go:338-340 *) mkMethod (bs "InDeltaMapValues") [(bs "expected", bs "interface{}"); (bs "actual", bs "interface{}"); (bs "delta", bs "float64"); (bs "msgAndArgs", bs "...interface{}")] (bs "InDeltaMapValues") [ET; EP (bs "expected"); EP (bs "actual"); EP (bs "delta"); EP (bs "msgAndArgs")] true;
  (** assertion_forward.go:343-345 *) mkMethod (bs "InDeltaMapValuesf") [(bs "expected", bs "interface{}"); (bs "actual", bs "interface{}"); (bs "delta", bs "float64"); (bs "msg", bs "string"); (bs "args", bs "...interface{}")] (bs "InDeltaMapValuesf") [ET; EP (bs "expected"); EP (bs "actual"); EP (bs "delta"); EP (bs "msg"); EP (bs "args")] true;
  (** assertion_forward.go:348-350 *) mkMethod (bs "InDeltaSlice") [(bs "expected", bs "interface{}"); (bs "actual", bs "interface{}"); (bs "delta", bs "float64"); (bs "msgAndArgs", bs "...interface{}")] (bs "InDeltaSlice") [ET; EP (bs "expected"); EP (bs "actual"); EP (bs "delta"); EP (bs "msgAndArgs")] true;
  (** assertion_forward.go:353-355 *) mkMethod (bs "InDeltaSlicef") [(bs "expected", bs "interface{}"); (bs "actual", bs "interface{}"); (bs "delta", bs "float64"); (bs "msg", bs "string"); (bs "args", bs "...interface{}")] (bs "InDeltaSlicef") [ET; EP (bs "expected"); EP (bs "actual"); EP (bs "delta"); EP (bs "msg"); EP (bs "args")] true;
  (** assertion_forward.go:360-362 *) mkMethod (bs "InDeltaf") [(bs "expected", bs "interface{}"); (bs "actual", bs "interface{}"); (bs "delta", bs "float64"); (bs "msg", bs "string"); (bs "args", bs "...interface{}")] (bs "InDeltaf") [ET; EP (bs "expected"); EP (bs "actual"); EP (bs "delta"); EP (bs "msg"); EP (bs "args")] true;
  (** assertion_forward.go:365-367 *) mkMethod (bs "InEpsilon") [(bs "expected", bs "interface{}"); (bs "actual", bs "interface{}"); (bs "epsilon", bs "float64"); (bs "msgAndArgs", bs "...interface{}")] (bs "InEpsilon") [ET; EP (bs "expected"); EP (bs "actual"); EP (bs "epsilon"); EP (bs "msgAndArgs")] true;
  (** assertion_forward.go:370-372 *) mkMethod (bs "InEpsilonSlice") [(bs "expected", bs "interface{}"); (bs "actual", bs "interface{}"); (bs "epsilon", bs "float64"); (bs "msgAndArgs", bs "...interface{}")] (bs "InEpsilonSlice") [ET; EP (bs "expected"); EP (bs "actual"); EP (bs "epsilon"); EP (bs "msgAndArgs")] true;
  (** assertion_forward.go:375-377 *) mkMethod (bs "InEpsilonSlicef") [(bs "expected", bs "interface{}"); (bs "actual", bs "interface{}"); (bs "epsilon", bs "float64"); (bs "msg", bs "string"); (bs "args", bs "...interface{}")] (bs "InEpsilonSlicef") [ET; EP (bs "expected"); EP (bs "actual"); EP (bs "epsilon"); EP (bs "msg"); EP (bs "args")] true;
  (** assertion_forward.go:380-382 *) mkMethod (bs "InEpsilonf") [(bs "expected", bs "interface{}"); (bs "actual", bs "interface{}"); (bs "epsilon", bs "float64"); (bs "msg", bs "string"); (bs "args", bs "...interface{}")] (bs "InEpsilonf") [ET; EP (bs "expected"); EP (bs "actual"); EP (bs "epsilon"); EP (bs "msg"); EP (bs "args")] true;
  (** assertion_forward.go:385-387 *) mkMethod (bs "IsType") [(bs "expectedType", bs "interface{}"); (bs "object", bs "interface{}"); (bs "msgAndArgs", bs "...interface{}")] (bs "IsType") [ET; EP (bs "expectedType"); EP (bs "object"); EP (bs "msgAndArgs")] true;
  (** assertion_forward.go:390-392 *) mkMethod (bs "IsTypef") [(bs "expectedType", bs "interface{}"); (bs "object", bs "interface{}"); (bs "msg", bs "string"); (bs "args", bs "...interface{}")] (bs "IsTypef") [ET; EP (bs "expectedType"); EP (bs "object"); EP (bs "msg"); EP (bs "args")] true;
  (** assertion_forward.go:397-399 *) mkMethod (bs "JSONEq") [(bs "expected", bs "string"); (bs "actual", bs "string"); (bs "msgAndArgs", bs "...interface{}")] (bs "JSONEq") [ET; EP (bs "expected"); EP (bs "actual"); EP (bs "msgAndArgs")] true;
  (** assertion_forward.go:404-406 *) mkMethod (bs "JSONEqf") [(bs "expected", bs "string"); (bs "actual", bs "string"); (bs "msg", bs "string"); (bs "args", bs "...interface{}")] (bs "JSONEqf") [ET; EP (bs "expected"); EP (bs "actual"); EP (bs "msg"); EP (bs "args")] true;
  (** assertion_forward.go:412-414 *) mkMethod (bs "Len") [(bs "object", bs "interface{}"); (bs "length", bs "int"); (bs "msgAndArgs", bs "...interface{}")] (bs "Len") [ET; EP (bs "object"); EP (bs "length"); EP (bs "msgAndArgs")] true;
  (** assertion_forward.go:420-422 *) mkMethod (bs "Lenf") [(bs "object", bs "interface{}"); (bs "length", bs "int"); (bs "msg", bs "string"); (bs "args", bs "...interface{}")] (bs "Lenf") [ET; EP (bs "object"); EP (bs "length"); EP (bs "msg"); EP (bs "args")] true;
  (** assertion_forward.go:427-429 *) mkMethod (bs "Nil") [(bs "object", bs "interface{}"); (bs "msgAndArgs", bs "...interface{}")] (bs "Nil") [ET; EP (bs "object"); EP (bs "msgAndArgs")] true;
  (** assertion_forward.go:434-436 *) mkMethod (bs "Nilf") [(bs "object", bs "interface{}"); (bs "msg", bs "string"); (bs "args", bs "...interface{}")] (bs "Nilf") [ET; EP (bs "object"); EP (bs "msg"); EP (bs "args")] true;
  (** assertion_forward.go:444-446 *) mkMethod (bs "NoError") [(bs "err", bs "error"); (bs "msgAndArgs", bs "...interface{}")] (bs "NoError") [ET; EP (bs "err"); EP (bs "msgAndArgs")] true;
  (** assertion_forward.go:454-456 *) mkMethod (bs "NoErrorf") [(bs "err", bs "error"); (bs "msg", bs "string"); (bs "args", bs "...interface{}")] (bs "NoErrorf") [ET; EP (bs "err"); EP (bs "msg"); EP (bs "args")] true;
  (** assertion_forward.go:464-466 *) mkMethod (bs "NotContains") [(bs "s", bs "interface{}"); (bs "contains", bs "interface{}"); (bs "msgAndArgs", bs "...interface{}")] (bs "NotContains") [ET; EP (bs "s"); EP (bs "contains"); EP (bs "msgAndArgs")] true;
  (** assertion_forward.go:474-476 *) mkMethod (bs "NotContainsf") [(bs "s", bs "interface{}"); (bs "contains", bs "interface{}"); (bs "msg", bs "string"); (bs "args", bs "...interface{}")] (bs "NotContainsf") [ET; EP (bs "s"); EP (bs "contains"); EP (bs "msg"); EP (bs "args")] true;
  (** assertion_forward.go:484-486 *) mkMethod (bs "NotEmpty") [(bs "object", bs "interface{}"); (bs "msgAndArgs", bs "...interface{}")] (bs "NotEmpty") [ET; EP (bs "object"); EP (bs "msgAndArgs")] true;
  (** assertion_forward.go:494-496 *) mkMethod (bs "NotEmptyf") [(bs "object", bs "interface{}"); (bs "msg", bs "string"); (bs "args", bs "...interface{}")] (bs "NotEmptyf") [ET; EP (bs "object"); EP (bs "msg"); EP (bs "args")] true;
  (** assertion_forward.go:504-506 *) mkMethod (bs "NotEqual") [(bs "expected", bs "interface{}"); (bs "actual", bs "interface{}"); (bs "msgAndArgs", bs "...interface{}")] (bs "NotEqual") [ET; EP (bs "expected"); EP (bs "actual"); EP (bs "msgAndArgs")] true;
  (** assertion_forward.go:514-516 *) mkMethod (bs "NotEqualf") [(bs "expected", bs "interface{}"); (bs "actual", bs "interface{}"); (bs "msg", bs "string"); (bs "args", bs "...interface{}")] (bs "NotEqualf") [ET; EP (bs "expected"); EP (bs "actual"); EP (bs "msg"); EP (bs "args")] true;
  (** assertion_forward.go:521-523 *) mkMethod (bs "NotNil") [(bs "object", bs "interface{}"); (bs "msgAndArgs", bs "...interface{}")] (bs "NotNil") [ET; EP (bs "object"); EP (bs "msgAndArgs")] true;
  (** assertion_forward.go:528-530 *) mkMethod (bs "NotNilf") [(bs "object", bs "interface{}"); (bs "msg", bs "string"); (bs "args", bs "...interface{}")] (bs "NotNilf") [ET; EP (bs "object"); EP (bs "msg"); EP (bs "args")] true;
  (** assertion_forward.go:535-537 *) mkMethod (bs "NotPanics") [(bs "f", bs "PanicTestFunc"); (bs "msgAndArgs", bs "...interface{}")] (bs "NotPanics") [ET; EP (bs "f"); EP (bs "msgAndArgs")] true;
  (** assertion_forward.go:542-544 *) mkMethod (bs "NotPanicsf") [(bs "f", bs "PanicTestFunc"); (bs "msg", bs "string"); (bs "args", bs "...interface{}")] (bs "NotPanicsf") [ET; EP (bs "f"); EP (bs "msg"); EP (bs "args")] true;
  (** assertion_forward.go:550-552 *) mkMethod (bs "NotRegexp") [(bs "rx", bs "interface{}"); (bs "str", bs "interface{}"); (bs "msgAndArgs", bs "...interface{}")] (bs "NotRegexp") [ET; EP (bs "rx"); EP (bs "str"); EP (bs "msgAndArgs")] true;
  (** assertion_forward.go:558-560 *) mkMethod (bs "NotRegexpf") [(bs "rx", bs "interface{}"); (bs "str", bs "interface{}"); (bs "msg", bs "string"); (bs "args", bs "...interface{}")] (bs "NotRegexpf") [ET; EP (bs "rx"); EP (bs "str"); EP (bs "msg"); EP (bs "args")] true;
  (** assertion_forward.go:566-568 *) mkMethod (bs "NotSubset") [(bs "list", bs "interface{}"); (bs "subset", bs "interface{}"); (bs "msgAndArgs", bs "...interface{}")] (bs "NotSubset") [ET; EP (bs "list"); EP (bs "subset"); EP (bs "msgAndArgs")] true;
  (** assertion_forward.go:574-576 *) mkMethod (bs "NotSubsetf") [(bs "list", bs "interface{}"); (bs "subset", bs "interface{}"); (bs "msg", bs "string"); (bs "args", bs "...interface{}")] (bs "NotSubsetf") [ET; EP (bs "list"); EP (bs "subset"); EP (bs "msg"); EP (bs "args")] true;
  (** assertion_forward.go:579-581 *) mkMethod (bs "NotZero") [(bs "i", bs "interface{}"); (bs "msgAndArgs", bs "...interface{}")] (bs "NotZero") [ET; EP (bs "i"); EP (bs "msgAndArgs")] true;
  (** assertion_forward.go:584-586 *) mkMethod (bs "NotZerof") [(bs "i", bs "interface{}"); (bs "msg", bs "string"); (bs "args", bs "...interface{}")] (bs "NotZerof") [ET; EP (bs "i"); EP (bs "msg"); EP (bs "args")] true;
  (** assertion_forward.go:591-593 *) mkMethod (bs "Panics") [(bs "f", bs "PanicTestFunc"); (bs "msgAndArgs", bs "...interface{}")] (bs "Panics") [ET; EP (bs "f"); EP (bs "msgAndArgs")] true;
  (** assertion_forward.go:599-601 *) mkMethod (bs "PanicsWithValue") [(bs "expected", bs "interface{}"); (bs "f", bs "PanicTestFunc"); (bs "msgAndArgs", bs "...interface{}")] (bs "PanicsWithValue") [ET; EP (bs "expected"); EP (bs "f"); EP (bs "msgAndArgs")] true;
  (** assertion_forward.go:607-609 *) mkMethod (bs "PanicsWithValuef") [(bs "expected", bs "interface{}"); (bs "f", bs "PanicTestFunc"); (bs "msg", bs "string"); (bs "args", bs "...interface{}")] (bs "PanicsWithValuef") [ET; EP (bs "expected"); EP (bs "f"); EP (bs "msg"); EP (bs "args")] true;
  (** assertion_forward.go:614-616 *) mkMethod (bs "Panicsf") [(bs "f", bs "PanicTestFunc"); (bs "msg", bs "string"); (bs "args", bs "...interface{}")] (bs "Panicsf") [ET; EP (bs "f"); EP (bs "msg"); EP (bs "args")] true;
  (** assertion_forward.go:622-624 *) mkMethod (bs "Regexp") [(bs "rx", bs "interface{}"); (bs "str", bs "interface{}"); (bs "msgAndArgs", bs "...interface{}")] (bs "Regexp") [ET; EP (bs "rx"); EP (bs "str"); EP (bs "msgAndArgs")] true;
  (** assertion_forward.go:630-632 *) mkMethod (bs "Regexpf") [(bs "rx", bs "interface{}"); (bs "str", bs "interface{}"); (bs "msg", bs "string"); (bs "args", bs "...interface{}")] (bs "Regexpf") [ET; EP (bs "rx"); EP (bs "str"); EP (bs "msg"); EP (bs "args")] true;
  (** assertion_forward.go:638-640 *) mkMethod (bs "Subset") [(bs "list", bs "interface{}"); (bs "subset", bs "interface{}"); (bs "msgAndArgs", bs "...interface{}")] (bs "Subset") [ET; EP (bs "list"); EP (bs "subset"); EP (bs "msgAndArgs")] true;
  (** assertion_forward.go:646-648 *) mkMethod (bs "Subsetf") [(bs "list", bs "interface{}"); (bs "subset", bs "interface{}"); (bs "msg", bs "string"); (bs "args", bs "...interface{}")] (bs "Subsetf") [ET; EP (bs "list"); EP (bs "subset"); EP (bs "msg"); EP (bs "args")] true;
  (** assertion_forward.go:653-655 *) mkMethod (bs "True") [(bs "value", bs "bool"); (bs "msgAndArgs", bs "...interface{}")] (bs "True") [ET; EP (bs "value"); EP (bs "msgAndArgs")] true;
  (** assertion_forward.go:660-662 *) mkMethod (bs "Truef") [(bs "value", bs "bool"); (bs "msg", bs "string"); (bs "args", bs "...interface{}")] (bs "Truef") [ET; EP (bs "value"); EP (bs "msg"); EP (bs "args")] true;
  (** assertion_forward.go:667-669 *) mkMethod (bs "WithinDuration") [(bs "expected", bs "time.Time"); (bs "actual", bs "time.Time"); (bs "delta", bs "time.Duration"); (bs "msgAndArgs", bs "...interface{}")] (bs "WithinDuration") [ET; EP (bs "expected"); EP (bs "actual"); EP (bs "delta"); EP (bs "msgAndArgs")] true;
  (** assertion_forward.go:674-676 *) mkMethod (bs "WithinDurationf") [(bs "expected", bs "time.Time"); (bs "actual", bs "time.Time"); (bs "delta", bs "time.Duration"); (bs "msg", bs "string"); (bs "args", bs "...interface{}")] (bs "WithinDurationf") [ET; EP (bs "expected"); EP (bs "actual"); EP (bs "delta"); EP (bs "msg"); EP (bs "args")] true;
  (** assertion_forward.go:679-681 *) mkMethod (bs "Zero") [(bs "i", bs "interface{}"); (bs "msgAndArgs", bs "...interface{}")] (bs "Zero") [ET; EP (bs "i"); EP (bs "msgAndArgs")] true;
  (** assertion_forward.go:684-686 *) mkMethod (bs "Zerof") [(bs "i", bs "interface{}"); (bs "msg", bs "string"); (bs "args", bs "...interface{}")] (bs "Zerof") [ET; EP (bs "i"); EP (bs "msg"); EP (bs "args")] true].

Section Calls.
  (** Values; the t; results.  [box]: a slice as an interface{} (assertion_forward.go:14-16) *)
  Variables (V T R : Type) (box : list V -> V).
  (** What a parameter or an expression holds: a.t, a value, or the slice of a variadic parameter (assertion_forward.go:14-16) *)
  Inductive arg := AT (t : T) | AV (v : V) | AS (l : list V).
  (** The functions, called with all their values: the t, the others, and the slice of the variadic parameter (assertions.go:304) *)
  Variable call : bytes -> list arg -> R.
  (** Assertions: forward_assertions.go:5-7 *)
  Record Assertions := mkAssertions { at_ : T }.
  (** forward_assertions.go:10-14 *)
  Definition New (t : T) : Assertions := mkAssertions t.

  (** == of names: assertion_forward.go:15 *)
  Definition nameEq (a b : bytes) : bool := if list_eq_dec Z.eq_dec a b then true else false.
  (** The value of an expression: assertion_forward.go:15 *)
  Definition evalExpr (a : Assertions) (env : list (bytes * arg)) (e : expr) : option arg :=
    match e with ET => Some (AT (at_ a)) | EP x => option_map snd (find (fun p => nameEq (fst p) x) env) end.
  (** As evalExpr: assertion_forward.go:15 *)
  Fixpoint evalExprs (a : Assertions) (env : list (bytes * arg)) (l : list expr) : option (list arg) :=
    match l with
    | [] => Some []
    | e :: l => match evalExpr a env e, evalExprs a env l with Some v, Some vs => Some (v :: vs) | _, _ => None end
    end.
  (** The parameters of a call of a function or method with parameters [ps]: the last ones make the slice of the variadic parameter (assertion_forward.go:14).  None: too few or too many *)
  Fixpoint bindValues (n : nat) (vs : list arg) : option (list arg * list arg) :=
    match n, vs with
    | O, _ => Some ([], vs)
    | S n, v :: vs => match bindValues n vs with Some (a, b) => Some (v :: a, b) | None => None end
    | S _, [] => None
    end.
  (** An argument in a slice of interface{} (assertion_forward.go:14); None: a t does not occur there *)
  Definition asValue (v : arg) : option V := match v with AT _ => None | AV v => Some v | AS l => Some (box l) end.
  (** As asValue, of all: assertion_forward.go:14 *)
  Fixpoint asValues (vs : list arg) : option (list V) :=
    match vs with [] => Some [] | v :: vs => match asValue v, asValues vs with Some v, Some vs => Some (v :: vs) | _, _ => None end end.
  (** The values of the parameters [ps] of a call with arguments [vs], the last of them followed by ... or not (assertion_forward.go:15) *)
  Definition pass (ps : list param) (vs : list arg) (spread : bool) : option (list arg) :=
    if spread then if variadic ps && (List.length vs =? List.length ps)%nat then match last vs (AS []) with AS _ => Some vs | _ => None end else None
    else if variadic ps then
      match bindValues (List.length ps - 1) vs with
      | Some (fixed, rest) => option_map (fun l => fixed ++ [AS l]) (asValues rest)
      | None => None
      end
    else if (List.length vs =? List.length ps)%nat then Some vs else None.
  (** The call of a function by its name: assertion_forward.go:15.  None: it is not compiled *)
  Definition callFunc (name : bytes) (vs : list arg) (spread : bool) : option R :=
    match find (fun f => nameEq (fname f) name) functions with
    | None => None
    | Some f => option_map (call name) (pass (fparams f) vs spread)
    end.
  (** The call of a method: assertion_forward.go:14-16 *)
  Definition callMethod (a : Assertions) (m : method) (vs : list arg) (spread : bool) : option R :=
    match pass (mparams m) vs spread with
    | None => None
    | Some vs =>
      match evalExprs a (combine (map fst (mparams m)) vs) (margs m) with
      | None => None
      | Some vs => callFunc (mcallee m) vs (mspread m)
      end
    end.
End Calls.
