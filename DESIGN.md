# A machine-checked model of go-aci

`/repo` is `JesseCoretta/go-aci`: a Go package to build, print and parse LDAP
access control instructions (ACIv3). The model is in Coq 8.16.1 under
`rocq/theories`. It follows the Go source function by function; every
definition names the Go file and lines it models, and every simplification is
stated in the same comment. The property list is `properties.jsonl`; the map
from properties to theorems is `MANIFEST.json`.

## Layout

| Kind | Files | Content |
|------|-------|---------|
| Library model | `GoStr.v` (facts in `GoStrFacts.v`), `Shifty.v` | the Go standard library string functions used, and the contract of the bit library |
| Code model | `M*.v` | one file per Go file (or group): definitions only, no proofs |
| Specification | `S*.v` | small definitions in the terms of the English property, not using model helpers |
| Proofs | `P*.v` | lemmas |
| Theorems | `T*.v` | the theorems named in `MANIFEST.json`, each followed by `Print Assumptions` and by an `Example` showing a case that meets its hypotheses |

Theorem names: `Cnn_...` belongs to property Cnn; `..._refuted` says that the
property as listed is false of the code and proves it with a witness;
`..._exact` says what the code does instead, for every input; `..._partial` is
the part of a false or too strong property that does hold. A property with a
`_refuted` theorem has status `partial` in the manifest, with a note that
starts "False of the code".

## What is modelled, and how the outside world enters

* **Strings** are byte strings (Coq `string`), as in Go. `strings.ToLower`,
  `EqualFold`, `TrimSpace` etc. are modelled on bytes. Case folding is exact
  when at least one side is ASCII (all tables in the code are), including the
  two non-ASCII code points which fold to ASCII letters (Kelvin sign, long s)
  and the two that lower to ASCII letters (Kelvin sign, dotted capital I).
  Between two non-ASCII texts the model's folding is coarser than Unicode; where that
  matters (uniqueness of list members) the theorem quantifies over an arbitrary
  folding equivalence.
* **go-shifty** (bit values; source not available) enters as a record of
  functions that satisfies an explicit contract `shifty_ok`: OR, AND-NOT, and
  single-bit test on in-range values. Everything else (zero, negative,
  out-of-range and multi-bit arguments) is left unspecified, so theorems hold
  for every such behaviour. C148-C150 also assume that a call reads the value
  once and then writes it once.
* **go-stackage** (stacks and conditions; source not available) is modelled as
  lists with a push policy. What happens to the remaining arguments of a
  multi-argument push after a rejection is left open (a parameter).
  The rendering of stacks and conditions is the format shown by the project's
  own tests.
  The text of an uninitialised stack is a parameter (`w_zero`). `SetExpression`
  of an initialised condition replaces the expression.
* **go-antlraci** (the ANTLR grammar; source not available) is not modelled.
  The functions that consume its output start from arbitrary parser output
  (token lists, expression values, nested stacks). One fact about it is used, in
  C120: this package imports it, so it cannot return an operator of this package's
  type.
* **go-objectid** dot notation validity is an arbitrary predicate.
* **SHA-1** is an arbitrary function.
* **Go map iteration order** is an arbitrary permutation of the table.
* **Panics** (nil dereference, index out of range) are explicit results.
* **Pointers.** Most of the model describes a method with a pointer receiver as a
  function from the old to the new value. `MHeap.v` adds what that leaves out: a
  heap, variables that hold pointers, and methods that write through them, for
  the types that are structures around one pointer (C85, C86), for
  permission-bind rules and lists of them (C87) and for lists of names (C88).
  `MGraph.v` does the same for nested bind rules: a stack holds references to its
  members, and Index, Pop and Traverse return the reference, as the project's own
  Traverse example shows. Two things about go-stackage are assumed there: Push
  itself does not refuse a stack that contains the receiver, and Replace accepts
  what Push accepts (C95-C97).
  `MShare.v` does it for rules and what they hold: a rule made from a list of
  names, attribute types or identifiers holds the list, and one made from a
  single value holds the value, so the text is that of the moment of printing
  (C103-C106). Assumed of go-stackage: a condition asks its expression for the
  text when it is printed, and `Expression` returns the value itself
  (bind_test.go:955-956). The quotation style is, as in the code, half a setting
  of the list and half one of the rule; in `MMeth.v` each rule has its own list.
  `MInst.v` does it for target rules, `TargetRules` and instructions (C107-C109).
  `MFShare.v` does it for search filters, attribute filters, their operations and lists of
  operations (C113-C115).

## Trusted base

* Coq's kernel (8.16.1).
* The faithfulness of the model to the Go source, as described in the comments
  of the `M*.v` files, and of the assumed behaviour of the libraries listed
  above.
* `Print Assumptions` stands after every theorem of the manifest and says
  "Closed under the global context" for each. No axiom is used, not even one of
  the standard library. A listing of the whole loaded environment shows seven
  axioms of `Coq.ssr.ssrunder`; they come with tactics the standard library
  loads, and no theorem depends on them.
* The contracts (`shifty_ok`, properties of the equality `eqf`, of the parsers
  in `world`) are hypotheses in the statements of the theorems that need them.
  There is no `Axiom`, `Parameter`, or `Variable` outside a section.

## Which parts of the code are modelled

Read "all" as: every function with behaviour of its own, including its
unexported helpers. Error values are modelled as success or failure only, except
in MErr.v, which has every message of `err.go` and which message a reader gives.

| Go file | Modelled in | Left out |
|---------|-------------|----------|
| attr.go | MAttr.v, MView.v, MMeth.v, MLists.v, MInfo.v, MShare.v, MEmbed.v, MKind.v, MFirst.v, MPair.v, MParseGo.v | `ID`; `resetKeyword` (no caller) |
| bind.go | MRule.v, MOper.v, MTree.v, MConv.v, MMeth.v, MGraph.v, MInspect.v, MShare.v, MLock.v | unexported `insert`, `remove`, `reset` |
| cop.go | MKw.v, MMeth.v | - |
| dn.go | MLists.v, MAlias.v, MView.v, MMeth.v, MHeap.v, MInfo.v, MKind.v, MDnGo.v | - |
| err.go | MErr.v | formatting flags of fmt (none is used here) |
| filter.go | MFilter.v, MView.v, MMeth.v, MInfo.v, MFShare.v, MPolicy.v, MRace.v, MFirst.v, MPair.v, MHdr.v | - |
| ins.go | MAci.v, MView.v, MInfo.v, MInst.v, MLock.v, MOnce.v, MRace.v, MInsGo.v | - |
| kw.go | MKw.v | - |
| levels.go | MLevels.v, MEmbed.v, MWord.v, MSeen.v | - |
| misc.go | MMisc.v, MInfo.v, MPad.v, GoStr.v | reflection helpers `isPtr`, `isIUint`, `bitSize` |
| net.go | MNet.v, MSlice.v, MLabel.v, MFirst.v | - |
| oid.go | MLists.v, MView.v, MInfo.v, MInspect.v, MField.v, MKind.v | - |
| parse.go | MConv.v, MTree.v, MAci.v, MView.v, MParseGo.v, MSetParse.v | go-antlraci, reached through arbitrary functions |
| pb.go | MAci.v, MPbs.v, MView.v, MHeap.v, MField.v, MFirst.v, MPb.v | - |
| rights.go | MRights.v, MHeap.v, MWord.v | - |
| scope.go | MSec.v | - |
| sec.go | MSec.v, MFirst.v, MSsf.v | - |
| shifty.go | Shifty.v | - |
| stackage.go | the list model itself, MOper.v (`castCop`) | casts between a list type and the stack it is made of |
| target.go | MRule.v, MOper.v, MConv.v, MView.v, MInspect.v, MInst.v, MLock.v | - |
| time.go | MTime.v, MMeth.v, MWord.v, MFirst.v, MTod.v, MSeen.v | - |
| uri.go | MUri.v, MFirst.v, MUriGo.v, MSetParse.v | - |

## Plan per property
* **C01** Permission is a set of rights under any history of Shift/Unshift: bits as N, history as a fold over calls; spec: last call that mentions the right. Induction on the history with N.lor/N.ldiff specs.
* **C02** Permission text determines the permission, and is order independent: printing reduced to a function of the 10 bits through the contract; injectivity from the round trip of C03.
* **C03** Permission text round trip through the parser's token list: model of unpackageAntlrPermission on token lists; induction on the list; round trip over all 1024 sets.
* **C04** The allow/deny disposition never changes: invariant over the history.
* **C05** Inheritance levels are a set under any history of Shift/Unshift: as C01 with three argument forms.
* **C06** Inheritance text round trip: parse o print on abstract attribute/value strings; string library lemmas (index, split, prefix).
* **C07** Parsing inheritance text never crashes: explicit Panic result; expected to be false: exact characterisation of the panicking inputs and a refutation.
* **C08** No inheritance level is silently ignored: expected to be false: witness with an unknown level id. Then, for every text, which ones are read and which levels they set (TLvlx.v).
* **C09** Day-of-week parsing accepts exactly day lists and yields the set: accept/reject equivalence by induction on the split list.
* **C10** Day-of-week text round trip and count: history invariant (bits within 2..255) and enumeration of the 128 sets.
* **C11** Time-of-day text round trip and order: model of time.Parse("1504"), Atoi and %04d; equivalence with a spec on four digits.
* **C12** Invalid time-of-day input is reported by Set, not stored as midnight: expected to be false: ToD("abcd") is valid and prints 0000; exact characterisation.
* **C13** Timeframe is the half-open interval rule: rendering through the BindRule model and a semantic evaluation of >= and <.
* **C14** Security strength factor is clamped to 0..256: model of Atoi with 64 bit clipping; clamp spec on Z; decimal notation specified separately (SStd.v) and related to Atoi by induction on the digits (TStd.v).
* **C15** Authentication method names round trip and matching does not depend on map order: table as list, lookup quantified over Permutation; equality of fold keys.
* **C16** Search scope names round trip: string match, equivalence with a table spec.
* **C17** Keyword and operator lookup is a case-insensitive bijection independent of table order: as C15 for the four tables.
* **C18** A rule that validates carries an operator its keyword permits: setter history as state machine; TargetRule proved, BindRule expected false.
* **C19** IP address lists hold unique, syntactically plausible addresses in push order: invariant over Set histories: NoDup, character class, order (subsequence).
* **C20** FQDN labels are always well formed: invariant over Set histories; split/join lemmas; what an invalid name prints (`C20_marker`).
* **C21** FQDN validity enforces the 253 byte limit and accepts names within it: expected to be false (label count squared is compared to 253): refutation and exact characterisation.
* **C22** Attribute type names accepted are exactly identifiers: byte-level spec of identifiers; induction.
* **C23** attr#bind-type-or-value round trip: index/prefix lemmas; fold of bind type names.
* **C24** Reading and printing attr#value never crashes: expected to be false: "cn#" panics when printed; exact characterisation.
* **C25** AttributeBindTypeOrValue.Parse keeps the requested keyword: expected to be false: the keyword argument is ignored.
* **C26** Distinguished names print with exactly one local scheme prefix: prefix lemmas.
* **C27** DN lists hold no duplicates and only their own keyword: invariant over Push/Pop histories with an arbitrary fold equivalence.
* **C28** DN text that is neither a DN nor an alias is rejected: expected to be false: the alias test never matches; exact characterisation of what is accepted.
* **C29** Object identifier lists hold no duplicates and only valid members of their keyword: invariant over Push histories with an arbitrary dot-notation validator.
* **C30** A targetcontrol/extop rule text is accepted only with all of its values: expected to be false: witness; proved part for lists without bad members.
* **C31** A targetattr rule text is accepted with all of its attributes: expected to be false: first value is used for every position; exact characterisation.
* **C32** Attribute lists hold no duplicates: member validity proved; uniqueness expected to be false (policy bound to a zero receiver).
* **C33** Attribute filter text round trip: split/join/trim lemmas on arbitrary strings without separators.
* **C34** No attribute filter is silently dropped: expected to be false: witness with an empty filter.
* **C35** LDAP URI text round trip: split/join lemmas per URI form.
* **C36** LDAP URI printing keeps every component: expected to be false: attributes without filter are dropped, subordinate scope prints base. Exact for every text of components (TUri.v) and for texts without a name (TUriP.v).
* **C37** Target rule lists hold at most one rule per keyword: invariant over Push/Pop histories; pigeonhole for nine.
* **C38** Permission-bind-rule lists hold valid distinct rules: invariant over Push/Pop histories.
* **C39** An instruction's label never changes once set: state machine of Set; invariant.
* **C40** Instruction lists hold no duplicates: expected to be false for labels with repeated blanks; proved for condensed texts.
* **C41** Converting the parsed bind-rule tree preserves its boolean meaning: tree model with nested induction; semantics parametric in the meaning of wide NOT.
* **C42** A bind rule that cannot be converted makes the whole parse fail: expected to be false: refutation; exact characterisation of the truncation.
* **C43** Whitespace condensation is idempotent and leaves no redundant blanks: byte-level model including the Latin-1 re-encoding of bytes >= 128: proved for ASCII, refuted in general, with the exact result for all text (TBlank.v); redundant blanks proved absent for all text; trimming against UTF-8 and the White_Space property written out in SStd.v (TStd.v). The texts it leaves as they are: exactly characterised in TKeep.v.
* **C44** Quote removal: case analysis on the ends of the string.
* **C45** Comparison by hash is an equivalence and equal texts compare equal: arbitrary digest function.
* **C46** Rendering of rules is unambiguous: injectivity of the rendered text by prefix lemmas.
* **C47** Rendering of nested bind rules evaluates as written: a reference reader for the rendered grammar; round trip by induction on trees.
* **C48** Instruction parsing reports component errors: model of the Parse driver over arbitrary parser output: expected to be false.

* **C49** A group inheritance rule keeps its keyword: expected to be false; exact keyword of the rule made by the constructor.
* **C50** A bare keyword never becomes a member of an object identifier list: expected to be false for every validator.
* **C51** Attribute filter operations hold valid distinct members: invariant over Push/Pop histories.
* **C52** A rule made from an LDAP URI carries the URI's keyword: case analysis on what the URI holds; false for two kinds.
* **C53** A semicolon-separated operation list keeps its delimiter: expected to be false; exact printed text.
* **C54** Attribute options are allowed in targattrfilters rules: expected to be false; exact for every text: which lists of operations and which rule values are read, and as what (TAfx.v).
* **C55** An accepted LDAP URI prints without a formatting panic: explicit panic result; exact for every text that is accepted (TUriP.v `C55_exact_all`).
* **C56** Target rule lists hold only valid rules: invariant with a hypothesis on what is pushed; refuted without it.
* **C57** Quotation style changes only the quotes: relation between the two printed texts for every list.
* **C58** Converting a parsed bind rule keeps what it says: case analysis on the keyword, printed texts compared.
* **C59** Stacks of bind rules hold only valid rules: exact push policy; refuted.
* **C60** The text of any stack of bind rules means what the stack means: a reference reader of the text; refuted with a witness, see C47 for the class where it holds.
* **C61**, **C62** ParseTargetRule and ParseBindRule report a value they cannot use: arbitrary parser output; refuted, with exact results.
* **C63** ParseTargetRules keeps every rule or reports an error: exact result by induction on the parser's rules; refuted.
* **C64** PermissionBindRules.Parse reports any unusable rule: exact result by induction.
* **C65** A valid permission-bind rule has valid bind rules: invariant over Set; refuted for the constructor.
* **C66** Pushing several values equals pushing them one by one: fold/append lemma per list type; exact where it fails.
* **C67** PBRs(x...) equals pushing x... on an empty list: comparison of the two folds; refuted for texts. MPbs.v adds the panics of the constructor (it parses a text before refusing it); its result is exact for every argument list.
* **C68** An instruction's text determines its contents: injectivity by prefix lemmas for labels without quotation mark; refuted otherwise. Readable instructions: a scanner that follows quotation marks (SLex.v) cuts the text after each rule.
* **C69** A parsed instruction holds what the text says: exact result of the driver over arbitrary parser output.
* **C70** Instructions never hold two rules for one target keyword or two equal permission-bind rules: invariant over all calls on an instruction and its parts.
* **C71** A rule made from a value says what the value says: printed text of every constructor (Eq, Ne, ...) per value type.
* **C72** A rule made from an attr#value pair has the pair's keyword: case analysis on the pair; false for uninitialised receivers.
* **C73**, **C74** BRM/TRM tables offer exactly the operators of the keyword: the tables compared with the permitted operators.
* **C75** A BRM table finds nothing under an argument that names no operator: arithmetic on the eight-bit cut; refuted.
* **C76** Weekdays and Weekend give the rule over those days: through the contract of the bit library.
* **C77** Set on a permission-bind rule replaces only what it is given: exact effect per argument, induction on the argument list.
* **C78** PBR gives the rule of its two arguments or the zero rule: exact text and validity.
* **C79** The text of an instruction list has one instruction per line: split/join lemmas; false for labels with newlines, exactly (`C79_exact`).
* **C80** Fold, Paren and NoPadding change only the presentation: the reference reader gives the same tree under every setting.
* **C81** Contains reports the members of a list: exact meaning per list type.
* **C82** Push and Contains agree: one-step laws on arbitrary lists.
* **C83** Pop returns the last member and removes it: Index/Len laws on arbitrary lists.
* **C84** Parse replaces the value or leaves it alone: per method, and over histories of Parse calls.
* **C85** Values made by separate calls are independent: heap model; invariant "distinct variables hold distinct pointers" over programs without copies.
* **C86** Changing a copy leaves the original as it was: expected to be false for all types that write in place; exact law of one call, and "linked" law over programs.
* **C87**, **C88** Lists keep what they were given: refuted; for programs that change nothing made before the last Push, invariant over the segment since that Push.
* **C89** Compare decides equality of values: sum type of the values; exact law through the text, refutation; equality of meaning per type from the injectivity of its text.
* **C90** Hash is a fixed-size fingerprint: SHA-1 as an arbitrary function with 20-byte results; hexadecimal printing is injective.
* **C91** Keyword agrees with the rules made: case analysis over the constructors and MMeth.v; expected to fail where Keyword is a constant or 0.
* **C92** F makes what Push would make: per list type; expected to be false where Push parses.
* **C93** IsZero, Valid, Len and String agree: per type, with the exact condition where Valid asks for more.
* **C94** The last argument decides: relation `last_decides` on argument lists; total, and the result follows it.
* **C95** Traverse gives the rule itself: rules and stacks as cells of a heap (MGraph.v), `shows` relates a reference to the tree it stands for; one cell changed, induction over `shows`.
* **C96** Finite text: false after `x.Push(x)` (no tree is shown by a cell that leads to itself, by size of trees); invariant "every cell shows a tree" over programs whose pushes are safe; exact condition for one Push.
* **C97** Index, Push, Pop, Replace: the same heap; each statement against the tree it changes, and a frame theorem for all statements.
* **C98** Every keyword reads its values by its own rules: `SRead.v` states what the rule shows after conversion (keyword, operator, display, quoted value); one theorem per family of keywords, each an equivalence "reads exactly when", plus the exact condition of the one crash.
* **C99** Instruction text and Parse: the text equation for every instruction, induction over the Set arguments for the label, case analysis for Parse.
* **C100** Setters: for every rule state, the whole new state is given; SetKeyword is expected to fail for keywords of the other context, hence an exact form.
* **C101** Constructor arguments by type: induction over the argument list ("last of a type wins") for URI, AF and AttributeFilterOperation.
* **C102** Documented day numbers: false (62 is Sunday to Thursday, ints above 7 are invalid); exact laws for sums of day constants and for ints.
* **C103** Rules as snapshots of lists: false; lists and rules as cells with references (MShare.v); frame theorem over all statements, and the rule equals, at every later moment, a rule made from the list at that moment.
* **C104** Style of one rule: false for rules on one list; exact texts of both rules; frame for other lists.
* **C105** Values always quoted: false in five ways; invariant over `tidy` programs relating the rule's quoting flag to the list's delimiter setting.
* **C106** Rules as snapshots of single values: false; the pointer heap of C85 with rules that hold a pointer; generic theorem over the types, instantiated for each.
* **C107** Different keywords in a list of target rules: false once rules are shared; rules, lists and instructions as cells with references (MInst.v); invariant over programs without SetKeyword on listed rules, exact condition for one SetKeyword, capacity as an invariant of all programs.
* **C108** Instructions change only through their own methods: false; frame theorem over all statements, Set against the value model of MAci.v by induction over its arguments.
* **C109** Spacing of a list of target rules: the text equation and, for every statement, what it does to the spacing.
* **C110** Reading a bind context: a relation `walk` that uses only the inspection methods (SInspect.v); existence, uniqueness and agreement with the boolean meaning by induction over the tree; histories by induction over the calls.
* **C111** Documented texts of the inspection methods: false for Category of a rule without keyword and for Traverse; exact laws through the keyword lookup of C17. The result of go-stackage's Traverse is an arbitrary argument.
* **C112** OID: the type assertion is modelled as a panic; case analysis over the keyword and the argument.
* **C113** Filters and operations as references (MFShare.v): programs over five kinds of variables; false by concrete programs; frame theorem by a notion of the cells a value is made of (SFShare.v); invariants by induction over programs that change only values outside stacks.
* **C114** Rules made from operations: a rule holds a text or the list itself; induction over the later program.
* **C115** Attribute filters and the search filters in them: false; exact list of the ways to change one, from the frame theorem.
* **C116** Histories of Set on attr#value pairs: false for strings; the argument that becomes the attribute and the one that becomes the value are characterised over the concatenation of all calls (MSetters.v, SSetters.v).
* **C117** Histories of Set on attribute filters: the loop over the concatenation of all calls, related to the calls made one by one through the reset of a zero filter.
* **C118** IsZero over histories: false; for each type the exact condition, by induction over the calls.
* **C119** Names of enumeration constants: one specification `tells` (SZero.v) for all eight enumerations; case analysis over all numbers, iteration order of the method table an arbitrary permutation; false for attribute operations.
* **C120** Operator of built and parsed rules: MOper.v keeps the Go type of the operator beside the rule (the parser cannot name this package's type, so what it returns is of another type); histories of calls by induction; false for parsed rules, with an exact account.
* **C121** The alias names: MAlias.v puts the four package variables into the heap of MHeap.v; the view of SAlias.v follows copies and Set calls statement by statement; agreement by induction on the program; false, with an exact account.
* **C122** Valid, IsZero and Len of method tables: the tables of MMeth.v, for every order of the map; from the C71 theorems on the rule of each method; false for add=/delete= operations and for pairs without a keyword, with an exact account.
* **C123** Text of a bind rule, read again: SBack.v says when a keyword, operator and values make up a text (the grammar itself is not modelled, so every way to cut the text is allowed) and that from every such reading conversion gives the same text; composed from C71 (the text of a made rule), the unique reading of a rule line (C71/C98 lemmas) and C98 (what conversion gives); false for long or non-ASCII domain names and for texts with double blanks, with an account. Exact conditions for names, pairs are in TKeep.v, for levels of inheritance and URIs in TFront.v: condensing keeps the number of every solid ASCII byte, so a changed text cannot be made to look unchanged.
* **C124** The same for target rules, from C71 and the target half of C98; false for lists of attributes, semicolons and short filters, with exact conditions. Exact conditions for names and filters are in TKeep.v: condensing keeps the number of every solid ASCII byte, so a changed text cannot be made to look unchanged.
* **C125** MPad.v: programs over the two variables and any number of instances (rules, stacks, lists of values, lists of target rules); the padding of an instance is computed from the text of the program alone (SPad.v) and proved equal by induction on the program. False for lists of target rules.
* **C126** MErr.v models fmt.Sprintf for the verbs used in err.go (with its complaints about missing and extra arguments), errorf, every function of err.go, and the errors of the readers next to the readers themselves; theorems give the exact texts, and that there is an error exactly when the reader's own model refuses. False for refused zero values and for the check of days.
* **C127** MEmbed.v: programs over pairs, inheritances and variables of both types, with the methods and fields Go promotes through the embedded structures. Non-interference by simulation: a program and the same program without its Shift and Unshift calls keep the same attribute parts; and the levels of an inheritance that has one name follow its Shift and Unshift calls. False in four ways, each exact.
* **C128** MField.v adds the exported fields P, B (on top of the rule machine of MHeap.v) and TargetKeyword, DotNotation (a machine of its own) to programs that push values on lists; invariants by induction on the program. A dot notation is taken as a value, not a pointer. False of the code without a condition on what is assigned.
* **C129** MLock.v adds the read-only bit of every stack to the programs of MGraph.v (bind rules) and MInst.v (target rules, instructions). Induction over the program, with the bit set after every prefix. Two things the examples do not show (whether ReadOnly() clears a set bit, whether the bit covers Paren, Fold and NoPadding) are arbitrary booleans.
* **C130** frame lemma: a heap that agrees on everything a list leads to shows the same tree. False of the code without that condition.
* **C131** the same machine over MInst.v: a fold over the arguments of Set; the refused pushes drop out of the fold.
* **C132** MWhole.v: one heap for permissions, bind rules, stacks, permission-bind rules, target rules, instructions and the lists of the last three; 35 kinds of statements, each writing what the value-level functions of the other files compute. Frame lemma: what a node leads to decides its text (a chain without end is longer than the heap, by the pigeonhole principle), and a step changes only the objects it touches (`step_keeps`).
* **C133** the invariant 'no text is the condensed text of a later one' over the programs of MWhole.v. False of the code once a member is changed through another name.
* **C134** the same for lists of permission-bind rules. False of the code for the same reason.
* **C135** refinement: the decoding of the heap after a step is the value-level function applied to the decoding before.
* **C136** an invariant over all programs of MWhole.v: every member of a list of permission-bind rules has a permission and a bind rule, because no method takes either away (PWholeV.v).
* **C137** refinement for all the other statements of MWhole.v (SWholeR.v decodes the heap to values, TWholeR.v): the decoding after a step is the value-level function of the other files applied to the decoding before. Without it a statement that does nothing would satisfy C132.
* **C138** a simulation between the joint run and each goroutine's run alone, up to the names of the objects (PWholeS.v: a relation between addresses, one-to-one, that all 35 statements of MWhole.v respect); the other goroutines' steps leave a goroutine's objects alone by the frame lemma of C132. Statements are atomic.
* **C139** induction over the arguments; the result is given by a relation (`gives`, TAfos.v) that does not mention the push of the model. False of the code for texts.
* **C140-C142** the argument of C138 for the machines of MShare.v (values; lists and rules) and MFShare.v (filters). PThreads.v proves it once for any machine whose steps respect a one-to-one renaming of the objects and leave alone what they do not change; TThreadV.v, TThreadL.v and TThreadF.v show that the three machines are of this kind. Statements are atomic.
* **C143** MKind.v: Kind and ID. The keyword of a list of identifiers is followed through every history by induction; the other types by cases. False of the code in three ways.
* **C144** MPolicy.v: String of one operation, statement by statement, for any number of goroutines and schedules. An invariant relates the depth of nested calls to the number of restores so far. False of the code; the exact worst case is proved. Assumed of go-stackage: a set presentation policy replaces the stack's String (filter.go:856-860).
* **C145** SGiven.v: the texts a value can be read from, without naming the functions that take quotation marks and blanks away. TGiven.v proves the equivalence for ASCII texts and restates C11, C14, C15 and C16 for raw texts.
* **C146** MRace.v: goroutines that push on one list, with a step for each round of the loop that looks for the value and one for the append. Any number of goroutines, any values, any schedule. SRace.v: finished, by turns, number of copies. Refuted by two goroutines with one value; TRace.v proves the exact bound by a potential that no step increases, and that a goroutine on its own gets what push1 of MLists.v says. Assumed of go-stackage: Push asks the policy first, and its append is one step.
* **C147** MOnce.v: Set with labels on one instruction variable, statement by statement: the test for nil, the assignment of a new instruction, the read of the pointer, the test and the assignment of the label. Any number of goroutines and calls, any schedule. SOnce.v: the label stays, number of changes. False of the code; TOnce.v proves the exact number of changes by a potential. No library is involved.
* **C148, C149, C150** MWord.v: Shift and Unshift of several goroutines on one permission, day list or inheritance, argument by argument; each call of the bit library is a read of the bits and a later write (an assumption: go-shifty's source is not available). Any number of goroutines and calls, any schedule. String of a permission: its reads, each at a moment of its own. SWord.v: rights given and taken, calls that take turns, orders of all calls, sets with a text of their own. C148 by an invariant of the bits and of what is in the hands of the goroutines. C149 and C150 are false of the code; TWord2.v and TWord3.v prove what is left and what is shown exactly.
* **C151, C152** MSlice.v: Set and String of one IPAddr by several goroutines: arrays, the header of the slice, each read and write of an element or of the header a step, `append` with any spare room. SSlice.v: the one goroutine that writes, goroutines that take turns, addresses given. C151 by an invariant: every array is written only behind the end of the list, and what a reader has seen is a beginning of the list. C152 is false of the code; what holds under every schedule is an invariant of all slices in anyone's hands.
* **C153, C154** MLabel.v: Set and String of one FQDN by several goroutines: arrays and header as in MSlice.v, the labels of one call stored one by one, and the reads of the length, of the validity check (two nested loops over the labels) and of the text each a step. SLabel.v: the one goroutine that writes, goroutines that take turns, labels given. Invariants as for C151; C154 is false of the code, with what holds beside it.
* **C155, C156** MFirst.v: the test for nil, the making of a value, the storing and reading of the pointer in Set and Shift of ten types, as one schedule machine with a record for what differs between the types; putting the arguments of one call in is one step. SFirst.v: moments without a running call, turns, orders of beginnings and of ends of the lists of calls. Invariants over the schedule with a log of the calls that are still in the value; C156 is false of the code, with the exact loss (only first calls of each goroutine) proved.
* **C148–C156, returning** PDrain.v, TReturn.v: in each of these machines a goroutine that runs alone comes to the end of its calls (a pair of counts goes down), so from every reachable state the schedule can be continued until all calls have returned (C148_returns, C151_returns, C153_returns, C155_returns; C144, C146 and C147 have their own).
* **C157, C158** MPair.v, first half: Set and String of one AttributeBindTypeOrValue; the test and the write of each argument, and the two reads of String, are steps of their own. SPair.v: arguments given, what an argument stands for, quiet moments, turns. Invariants over the schedule; C158 is false of the code, as of C147.
* **C159, C160** MPair.v, second half: Set (each argument one write of one part) and String (up to six reads: IsZero, Valid, the text) of one AttributeFilter. C159 by a log of the arguments and by the moments of the reads; C160 is false of the code.
* **C161, C162** MPb.v: Set (one write of P or B per value, both for a text) and String (up to six reads) of one valid PermissionBindRule. SPb.v: arguments given, calls taking turns, rules given as a whole, calls that give no permission or no bind rule. Invariants over the schedule; what one goroutine leaves by what its remaining writes make of the rule. C162 is false of the code; TPb2.v proves the exact outcomes of two calls.
* **C163, C164** MUriGo.v: Set (one write per value, six for a text, a read and pushes for a list of attributes) and String (a copy of six words, then printing) of one LDAPURI. SUriGo.v: parts, parts given, calls one after the other, mixtures. Invariants over the schedule; a call run on its own equals uri_set and uri_string of MUri.v (TUriGo.v), which gives the theorems about one setter and about calls that do not overlap. C164 is false of the code; TUriGo3.v proves the exact outcomes of two calls.
* **C165, C166** MTod.v: Set (a new object of two bytes, each byte written, the pointer assigned, the variable read again for the result) and String (the pointer read, then the two bytes) of one TimeOfDay variable. STod.v: times given, calls of one goroutine alone. Invariant: an object is written only by the call that made it, before anybody can see it. C166 is false of the code; TTod2.v proves the exact outcomes.
* **C167, C168** MSsf.v: Set (the variable read, a new ssf assigned and filled if there is none, the variable read again, the pointer written, the variable read for the result) and String (the variable read, the pointer read by IsZero and again by String, a panic if it is nil then) of one SecurityStrengthFactor variable. SSsf.v: values given, arguments that take the factor away, calls of one goroutine alone. Invariants over the schedule; C168 is false of the code and TSsf2.v proves exactly when.
* **C169, C170** MDnGo.v: Set (the variable and the text read, a new object assigned if there is none, the variable read again, the keyword written, the text written, the variable read for the result), String (the text read by Valid and again by String) and Eq with String of the rule (the text read by IsZero, the keyword read, the text read) of one distinguished name variable. SDnGo.v: keywords and texts given, calls of one goroutine alone. Invariants over the schedule; C170 is false of the code and TDnGo2.v proves the mixtures exactly.
* **C171, C172** MHdr.v: Set and String of one SearchFilter, word by word: a Go string is two words, where its bytes are and how many they are, written and read one after the other in an order that is a parameter; bytes behind a text are those of an arbitrary function. The other models of goroutines read and write strings as a whole; this one shows what that leaves out. SHdr.v: texts given, calls of one goroutine alone. Invariants over the schedule; C172 is false of the code and THdr2.v proves exactly what can be returned and left.
* **C173, C174** MInsGo.v: Set (for each argument the test and the write of the label, or one push that an arbitrary policy takes or refuses) and String (the label read for the call of sprintf, then the target rules printed, then the permission-bind rules) of one Instruction. SInsGo.v: arguments given, prefixes, calls of one goroutine alone. Invariants over the schedule; C174 is false of the code and TInsGo2.v proves exactly what is printed beside one call of Set.
* **C175, C176** MSeen.v: String of a DayOfWeek and of an Inheritance beside the goroutines of MWord.v, with a moment of the schedule for each read. SSeen.v: texts of sets of days and of levels. Bit by bit from C148; C176 is false of the code and TSeen.v proves exactly what is printed. TSeen.v also extends C149 to day lists and inheritances. That a copy of a value of the bit library shares its bits is an assumption about go-shifty; the code relies on it (Shift is called on the copy that cast returns). TSeen2.v reads the texts back with C08 and C10.
* **C177, C178** MParseGo.v: goroutines that call Parse on one variable and methods that read it; a variable of one word for twelve types, of two words in either order for AttributeBindTypeOrValue. SParseGo.v: what a variable and a copy may be, in terms of what texts say alone. By an invariant that keeps which goroutine stored last; C178 is false of the code and TParseGo.v proves which words a copy has.
* **C179, C180** MSetParse.v: goroutines that call Set (as in MFirst.v) and Parse (as in MParseGo.v) on one variable. SSetParse.v: orders of calls. C179 by an invariant with a history: calls of Set that still work on a value when Parse replaces it are put before that Parse. C180 is false of the code.
* **TTight.v** further theorems for C01, C09, C14, C16, C17, C52, C57, C81, C87 and C93 that wrong programs showed to be missing. The texts that name a right, a day, a scope or a keyword are given there by an inductive relation (`spells`, `folds`) that mentions neither strings.ToLower nor strings.EqualFold.
