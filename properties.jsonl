{"id": "C01", "title": "Permission is a set of rights under any history of Shift/Unshift", "statement": "Starting from a fresh Allow(...) or Deny(...), after any sequence of Shift and Unshift calls naming rights (by constant or, case-insensitively, by name), Positive(r) is true for a named right r exactly when the most recent call that mentions r (directly or through 'all') was a Shift. Calls with unknown names or unsupported argument types change nothing.", "quantifier": "every disposition, every finite sequence of Shift/Unshift calls with argument lists of any length, every right, and every behaviour of the go-shifty bit library that satisfies its documented OR/AND-NOT contract on in-range values", "why_tests_cant": "histories are unbounded and interact through one shared bit field; a test can only try a few orders", "anchors": ["rights.go:Permission.Shift", "rights.go:Permission.Unshift", "rights.go:Permission.Positive", "rights.go:permission.shift"]}
{"id": "C02", "title": "Permission text determines the permission, and is order independent", "statement": "Permission.String depends only on the disposition and on the set of rights granted, lists each right once in the fixed order of the constants, and two permissions with the same text have the same disposition and grant exactly the same rights.", "quantifier": "every pair of permissions reachable by Shift/Unshift histories over named rights", "why_tests_cant": "injectivity relates every pair of the 2*1024 states and every history leading to them", "anchors": ["rights.go:permission.string", "rights.go:Permission.String"]}
{"id": "C03", "title": "Permission text round trip through the parser's token list", "statement": "Splitting the rights list printed by Permission.String at commas and feeding it, with the disposition, to the permission reader gives a permission with the same text and the same rights. A permission read from any token list grants exactly the union of the rights named in it, in whatever order and case, and repeated names make no difference.", "quantifier": "every reachable permission, every list of tokens (any length, order, letter case, repetitions), every behaviour of the bit library within contract", "why_tests_cant": "token lists are unbounded; order/case/repetition independence is a statement over all of them", "anchors": ["rights.go:permission.string", "parse.go:unpackageAntlrPermission", "rights.go:permission.parse"]}
{"id": "C04", "title": "The allow/deny disposition never changes", "statement": "No sequence of Shift, Unshift, String, Positive or Len calls changes whether a permission is an allow or a deny, and every text it prints begins with that disposition.", "quantifier": "every permission and every finite call history", "why_tests_cant": "a safety property over unbounded histories: an accidental flip anywhere grants what was denied", "anchors": ["rights.go:Permission.Disposition", "rights.go:permission.disposition"]}
{"id": "C05", "title": "Inheritance levels are a set under any history of Shift/Unshift", "statement": "After any sequence of Shift/Unshift calls on a valid Inheritance with levels given as Level constants, integers 0-9 or digit strings, Positive(l) is true exactly when the most recent call that mentions l was a Shift; the attribute part never changes.", "quantifier": "every initial inheritance, every finite history, every level 0-9, every in-contract bit library", "why_tests_cant": "unbounded histories over three argument representations", "anchors": ["levels.go:Inheritance.Shift", "levels.go:Inheritance.Unshift", "levels.go:Inheritance.Positive"]}
{"id": "C06", "title": "Inheritance text round trip", "statement": "For every non-empty set of levels and every well-formed attr#bind-type-or-value, parsing the text printed by Inheritance.String succeeds and gives back the same levels and the same attribute and value, and prints the same text again.", "quantifier": "every non-empty subset of levels 0-9, every valid attribute name, every bind type and every value string", "why_tests_cant": "attribute names and values are unbounded strings", "anchors": ["levels.go:Inheritance.String", "levels.go:parseInheritance", "parse.go:assertBindUGAttr"]}
{"id": "C07", "title": "Parsing inheritance text never crashes", "statement": "Reading the value of a userattr or groupattr bind rule that starts with parent[ returns a result or an error for every value text; it never panics.", "quantifier": "every byte string", "why_tests_cant": "absence of panics over all strings; only the one string shape nobody thought of matters", "anchors": ["levels.go:parseInheritance", "parse.go:assertBindUGAttr"]}
{"id": "C08", "title": "No inheritance level is silently ignored", "statement": "If a parent[...] value is accepted then every comma separated level identifier in the brackets is a known level and is set in the result; anything else is reported as an error.", "quantifier": "every byte string accepted by the parser", "why_tests_cant": "soundness of rejection ranges over all unknown identifiers mixed with known ones", "anchors": ["levels.go:parseInheritance", "levels.go:inheritance.shift", "parse.go:assertBindUGAttr"]}
{"id": "C09", "title": "Day-of-week parsing accepts exactly day lists and yields the set", "statement": "Parsing a dayofweek text succeeds exactly when, after removing spaces, every comma separated item is a known day name or number, and then the value holds exactly the named days: order, letter case, spelling and repetition make no difference.", "quantifier": "every byte string", "why_tests_cant": "both directions of an accept/reject equivalence over all strings", "anchors": ["time.go:parseDoW", "time.go:matchStrDoW", "time.go:DayOfWeek.Parse", "parse.go:assertBindDayOfWeek"]}
{"id": "C10", "title": "Day-of-week text round trip and count", "statement": "For every non-empty set of days reached by any Shift/Unshift history over the seven days, String lists each day once in calendar order, parsing that text gives the same set, and Len is the number of days.", "quantifier": "every Shift/Unshift history over days, in any argument form", "why_tests_cant": "unbounded histories; round trip must hold in each reachable state", "anchors": ["time.go:DayOfWeek.String", "time.go:DayOfWeek.Len", "time.go:DayOfWeek.Shift", "time.go:DayOfWeek.Unshift", "time.go:parseDoW"]}
{"id": "C11", "title": "Time-of-day text round trip and order", "statement": "A four digit HHMM text with HH<24 and MM<60, or 2400, is stored and printed unchanged, and the stored clock values are ordered as the times are. A timeofday bind rule text is accepted exactly for those texts; nothing else is silently turned into another time.", "quantifier": "every byte string for acceptance; every pair of valid clock texts for order", "why_tests_cant": "accept/reject equivalence over all strings and order over all pairs", "anchors": ["time.go:TimeOfDay.Set", "time.go:assertToD", "time.go:TimeOfDay.String", "parse.go:assertBindTimeOfDay"]}
{"id": "C12", "title": "Invalid time-of-day input is reported by Set, not stored as midnight", "statement": "A TimeOfDay built from text that is not a clock time reports itself invalid.", "quantifier": "every byte string that is not a clock time", "why_tests_cant": "ranges over all invalid inputs", "anchors": ["time.go:ToD", "time.go:TimeOfDay.Set", "time.go:TimeOfDay.Valid"]}
{"id": "C13", "title": "Timeframe is the half-open interval rule", "statement": "Timeframe(a,b) renders as the conjunction timeofday >= a and timeofday < b, and for every clock time t the pair of conditions holds exactly when a <= t < b.", "quantifier": "every pair of times and every probe time", "why_tests_cant": "all pairs and probes", "anchors": ["time.go:Timeframe"]}
{"id": "C14", "title": "Security strength factor is clamped to 0..256", "statement": "After any sequence of Set calls with integers or strings the SSF is a number from 0 to 256 equal to the last supported argument clamped to that range, String prints it in decimal, and an ssf bind rule text is accepted exactly when it is the canonical decimal of a number 0..256.", "quantifier": "every sequence of Set calls with arbitrary integers and strings; every byte string for acceptance", "why_tests_cant": "unbounded integers and strings; off-by-one storage makes boundary cases matter for all", "anchors": ["sec.go:SecurityStrengthFactor.Set", "sec.go:securityStrengthFactor.set", "sec.go:stringToIntSSF", "parse.go:assertBindSecurityStrengthFactor"]}
{"id": "C15", "title": "Authentication method names round trip and matching does not depend on map order", "statement": "Every authentication method prints a name that matches back to the same method in any letter case, whatever order the internal table is iterated in; an authmethod bind rule text is accepted exactly when it is one of those names in some letter case.", "quantifier": "every method, every byte string, every iteration order of the lookup table (Go map order is random)", "why_tests_cant": "map iteration order is a scheduler choice and strings are unbounded", "anchors": ["sec.go:matchAuthenticationMethod", "sec.go:AuthenticationMethod.String", "parse.go:assertBindAuthenticationMethod"]}
{"id": "C16", "title": "Search scope names round trip", "statement": "Every search scope's standard name and every target name reads back to the same scope in any letter case, and a targetscope rule is accepted exactly for known names.", "quantifier": "every scope and every byte string", "why_tests_cant": "accept/reject equivalence over all strings", "anchors": ["scope.go:strToScope", "scope.go:SearchScope.String", "parse.go:assertTargetScope"]}
{"id": "C17", "title": "Keyword and operator lookup is a case-insensitive bijection independent of table order", "statement": "Every bind keyword, target keyword, bind type and comparison operator prints a text that matches back to it alone, in any letter case, for any iteration order of the tables; any other text matches nothing.", "quantifier": "every keyword and operator, every byte string, every table iteration order", "why_tests_cant": "map iteration order and all strings", "anchors": ["kw.go:matchBKW", "kw.go:matchTKW", "kw.go:matchBT", "cop.go:matchCOP"]}
{"id": "C18", "title": "A rule that validates carries an operator its keyword permits", "statement": "A BindRule or TargetRule that reports itself valid has a known keyword and a comparison operator permitted for that keyword, whatever sequence of Init/SetKeyword/SetOperator/SetExpression calls produced it.", "quantifier": "every sequence of setter calls with every keyword and operator", "why_tests_cant": "unbounded setter histories", "anchors": ["bind.go:BindRule.SetOperator", "bind.go:BindRule.Valid", "target.go:TargetRule.SetOperator", "target.go:TargetRule.Valid", "cop.go:keywordAllowsComparisonOperator"]}
{"id": "C19", "title": "IP address lists hold unique, syntactically plausible addresses in push order", "statement": "After any sequence of Set calls an IPAddr holds only texts made of IPv4 or IPv6 characters, no two equal, in first-arrival order, and String joins them with commas; rejected texts leave the list unchanged.", "quantifier": "every finite sequence of Set calls with arbitrary texts", "why_tests_cant": "unbounded histories of arbitrary strings", "anchors": ["net.go:ipAddrs.set", "net.go:IPAddr.Set", "net.go:IPAddr.String", "net.go:isValidV4", "net.go:isValidV6"]}
{"id": "C20", "title": "FQDN labels are always well formed", "statement": "After any sequence of Set calls every label of an FQDN is 1 to 63 bytes, each a letter (of Latin-1), a digit, an asterisk or a hyphen, and neither starts nor ends with a hyphen; for a valid FQDN String is the dotted join and splitting it gives the labels back, and for any other it is the marker <invalid_fqdn_or_label>, which is never the dotted join of labels.", "quantifier": "every finite sequence of Set calls with arbitrary texts", "why_tests_cant": "unbounded histories of arbitrary strings", "anchors": ["net.go:FQDN.Set", "net.go:processLabel", "net.go:validLabel", "net.go:FQDN.String"]}
{"id": "C21", "title": "FQDN validity enforces the 253 byte limit and accepts names within it", "statement": "An FQDN is valid exactly when it has at least two labels and its text is at most 253 bytes.", "quantifier": "every FQDN of well-formed labels", "why_tests_cant": "ranges over label lists of any length", "anchors": ["net.go:FQDN.Valid", "net.go:labels.len"]}
{"id": "C22", "title": "Attribute type names accepted are exactly identifiers", "statement": "AT(s) holds s exactly when s is '*' or starts with a letter, ends with a letter or digit and otherwise consists of letters, digits, hyphens and semicolons; any other text gives an attribute type that reports itself zero. The stored text is never altered.", "quantifier": "every byte string", "why_tests_cant": "accept/reject equivalence over all strings", "anchors": ["attr.go:AT", "misc.go:isIdentifier"]}
{"id": "C23", "title": "attr#bind-type-or-value round trip", "statement": "For every valid attribute name and every bind type or non-empty value, printing an AttributeBindTypeOrValue and parsing the text gives back the same attribute and value, with bind type names recognised in any letter case and all other values kept verbatim.", "quantifier": "every attribute name, bind type and value string", "why_tests_cant": "unbounded strings", "anchors": ["attr.go:parseATBTV", "attr.go:atbtv.String", "attr.go:AttributeBindTypeOrValue.Parse"]}
{"id": "C24", "title": "Reading and printing attr#value never crashes", "statement": "Parsing any text into an AttributeBindTypeOrValue and then printing the result never panics.", "quantifier": "every byte string", "why_tests_cant": "absence of panics over all strings", "anchors": ["attr.go:parseATBTV", "attr.go:atbtv.String"]}
{"id": "C25", "title": "AttributeBindTypeOrValue.Parse keeps the requested keyword", "statement": "Parse with an explicit keyword groupattr yields an instance whose Keyword is groupattr.", "quantifier": "every accepted text and both keywords", "why_tests_cant": "ranges over all accepted texts", "anchors": ["attr.go:AttributeBindTypeOrValue.Parse", "kw.go:assertATBTVBindKeyword"]}
{"id": "C26", "title": "Distinguished names print with exactly one local scheme prefix", "statement": "For every non-empty text that does not start with ldap:///, building a DN with or without the ldap:/// prefix gives the same DN, which prints as ldap:/// followed by the text; for every non-empty text, rebuilding a DN from its own text is the identity and the keyword is that of the constructor; the empty text gives a zero DN.", "quantifier": "every byte string and every DN constructor", "why_tests_cant": "idempotence over all strings", "anchors": ["dn.go:newDistinguishedName", "dn.go:distinguishedName.String", "dn.go:chopDNPfx"]}
{"id": "C27", "title": "DN lists hold no duplicates and only their own keyword", "statement": "After any sequence of Push/Pop calls on a DN list, no two members have texts equal up to letter case and every DN member carries the list's keyword.", "quantifier": "every finite sequence of Push and Pop calls with arbitrary strings, DNs and URIs; any equivalence used as case folding; any continuation behaviour of the stack library after a rejected item", "why_tests_cant": "unbounded histories; the uniqueness is relational over all pairs of members", "anchors": ["dn.go:pushBindDistinguishedNames", "dn.go:uDNsPushPolicy", "dn.go:distinguishedNames.contains", "dn.go:TargetDistinguishedNames.Push"]}
{"id": "C28", "title": "DN text that is neither a DN nor an alias is rejected", "statement": "A userdn/groupdn/roledn/target rule text is accepted only if every '||' separated value is an attribute=value style DN or one of the aliases all, anyone, self, parent.", "quantifier": "every list of value texts", "why_tests_cant": "rejection over all strings", "anchors": ["dn.go:isInvalidDNSyntax", "dn.go:isDNAlias", "dn.go:BindDistinguishedNames.setExpressionValues"]}
{"id": "C29", "title": "Object identifier lists hold no duplicates and only valid members of their keyword", "statement": "After any sequence of Push calls on an extop or targetcontrol list every member is a valid identifier of the list's keyword and no two are equal.", "quantifier": "every finite sequence of Push calls with arbitrary strings and identifiers; any dot-notation validator", "why_tests_cant": "unbounded histories", "anchors": ["oid.go:ObjectIdentifiers.Push", "oid.go:ObjectIdentifiers.pushPolicy", "oid.go:ObjectIdentifiers.contains"]}
{"id": "C30", "title": "A targetcontrol/extop rule text is accepted only with all of its values", "statement": "If a targetcontrol or extop rule is accepted, the list it holds has exactly the values written, in order.", "quantifier": "every list of value texts", "why_tests_cant": "ranges over all lists, including those with one bad member anywhere", "anchors": ["parse.go:assertTargetOID", "oid.go:ObjectIdentifiers.setExpressionValues"]}
{"id": "C31", "title": "A targetattr rule text is accepted with all of its attributes", "statement": "If a targetattr rule with several values is accepted, the list it holds has exactly the attribute names written, in order.", "quantifier": "every list of attribute texts", "why_tests_cant": "ranges over all lists of length two and more", "anchors": ["parse.go:assertTargetAttributes"]}
{"id": "C32", "title": "Attribute lists hold no duplicates", "statement": "After any sequence of Push calls on an attribute list built by TAs() or UAs(), no two members are equal up to letter case and all members are attribute names.", "quantifier": "every finite sequence of Push calls", "why_tests_cant": "unbounded histories", "anchors": ["attr.go:TAs", "attr.go:UAs", "attr.go:AttributeTypes.pushPolicy", "attr.go:AttributeTypes.contains"]}
{"id": "C33", "title": "Attribute filter text round trip", "statement": "For every valid attribute and non-empty filter, printing attr:filter and parsing it gives the same attribute and filter; a list of them joined as add=/delete= operation prints to text that parses back to the same operation and members, in order, provided the names are ASCII and the filters are single-spaced ASCII text without the separators and not ending in a quotation mark; the same holds for lists of operations and for the targattrfilters rule reader when no name or filter contains a list delimiter or an operation word.", "quantifier": "every attribute, every filter text, lists of any length", "why_tests_cant": "unbounded strings and lists", "anchors": ["filter.go:parseAttributeFilter", "filter.go:parseAttributeFilterOperation", "filter.go:parseAttributeFilterOperations", "filter.go:AttributeFilter.String"]}
{"id": "C34", "title": "No attribute filter is silently dropped", "statement": "If an add=/delete= operation text is accepted, the result holds one member per '&&' separated item.", "quantifier": "every byte string accepted", "why_tests_cant": "ranges over all accepted texts", "anchors": ["filter.go:parseAttributeFilterOperation", "filter.go:AttributeFilterOperation.pushPolicy"]}
{"id": "C35", "title": "LDAP URI text round trip", "statement": "For a DN without '?' and the forms with scope and filter, or with attr#value, printing an LDAPURI and parsing the text gives back the same text; parsing rejects every text without the ldap:/// prefix.", "quantifier": "every DN, attribute list, scope, filter and attr#value text satisfying the separators condition; every byte string for rejection", "why_tests_cant": "unbounded strings", "anchors": ["uri.go:ldapURI.string", "parse.go:parseLDAPURI", "uri.go:ldapURI.assertURIComponents"]}
{"id": "C36", "title": "LDAP URI printing keeps every component", "statement": "Parsing a URI text and printing the result keeps the attribute list and scope that were written.", "quantifier": "every accepted URI text", "why_tests_cant": "ranges over all accepted texts", "anchors": ["uri.go:ldapURI.string"]}
{"id": "C37", "title": "Target rule lists hold at most one rule per keyword", "statement": "After any sequence of Push/Pop calls a TargetRules list holds only rules with one of the nine known target keywords, no two with the same keyword, hence at most nine; a push adds a rule exactly when its keyword is known and not yet present.", "quantifier": "every finite sequence of Push and Pop calls with arbitrary rules", "why_tests_cant": "unbounded histories; pairwise property", "anchors": ["target.go:TargetRules.Push", "target.go:TargetRules.pushPolicy", "target.go:TargetRules.contains"]}
{"id": "C38", "title": "Permission-bind-rule lists hold valid distinct rules", "statement": "After any sequence of Push/Pop calls a PermissionBindRules list holds only valid rules and no two with equal text, and its text contains each rule terminated by a semicolon.", "quantifier": "every finite sequence of Push and Pop calls", "why_tests_cant": "unbounded histories; pairwise property", "anchors": ["pb.go:PermissionBindRules.Push", "pb.go:PermissionBindRules.pushPolicy", "pb.go:PermissionBindRules.contains"]}
{"id": "C39", "title": "An instruction's label never changes once set", "statement": "Once an Instruction's access control label is set no later Set or Push call with any arguments changes it, and bare target rules and permission-bind rules are routed to the right list.", "quantifier": "every finite sequence of Set calls with arbitrary argument lists", "why_tests_cant": "unbounded histories", "anchors": ["ins.go:Instruction.Set", "ins.go:instruction.setLabel"]}
{"id": "C40", "title": "Instruction lists hold no duplicates", "statement": "After any sequence of Push calls an Instructions list holds only valid instructions and no two of them have equal text.", "quantifier": "every finite sequence of Push calls", "why_tests_cant": "unbounded histories; pairwise property", "anchors": ["ins.go:Instructions.Push", "ins.go:Instructions.pushPolicy", "ins.go:Instructions.contains"]}
{"id": "C41", "title": "Converting the parsed bind-rule tree preserves its boolean meaning", "statement": "When the conversion of the parser's nested stacks into BindRules succeeds, evaluating the result over any assignment of truth values to the individual rules gives the same answer as evaluating the parser's tree.", "quantifier": "every tree of AND/OR/NOT stacks of any depth and width, every truth assignment", "why_tests_cant": "trees are unbounded; semantic equivalence over all assignments", "anchors": ["bind.go:convertBindRulesHierarchy", "bind.go:uncloakBindRules", "bind.go:wordToStack"]}
{"id": "C42", "title": "A bind rule that cannot be converted makes the whole parse fail", "statement": "If any individual rule anywhere in the tree fails to convert, the conversion reports failure; it never returns a structure with that rule and its successors missing.", "quantifier": "every tree containing a failing rule at any position", "why_tests_cant": "error at every position of every tree", "anchors": ["bind.go:convertBindRulesHierarchy", "parse.go:parseBindRules"]}
{"id": "C43", "title": "Whitespace condensation is idempotent and leaves no redundant blanks", "statement": "Condensing any text twice is the same as once; the result has no leading or trailing white space and no two adjacent blanks, and non-blank characters are kept unchanged and in order.", "quantifier": "every byte string", "why_tests_cant": "all strings, including non-ASCII bytes", "anchors": ["misc.go:condenseWHSP"]}
{"id": "C44", "title": "Quote removal", "statement": "Removing quotes from a non-empty quoted text gives the text, whichever of the three quotation characters is used, and leaves unquoted text alone.", "quantifier": "every text and both quotation styles", "why_tests_cant": "all strings", "anchors": ["misc.go:unquote"]}
{"id": "C45", "title": "Comparison by hash is an equivalence and equal texts compare equal", "statement": "Compare is symmetric and transitive, reflexive on every instance that prints a non-empty text, and two instances that print the same non-empty text always compare equal; unequal texts compare unequal unless the digest collides.", "quantifier": "every pair of instances and every hash function", "why_tests_cant": "quantifies over all pairs of values", "anchors": ["misc.go:hashInstance", "misc.go:compareHashInstance"]}
{"id": "C46", "title": "Rendering of rules is unambiguous", "statement": "The rendered text of a bind or target rule with a known keyword, a known operator and a quoted value determines its keyword, operator and value text; the value text of a list determines its values in either quotation style.", "quantifier": "every pair of rules: every keyword, operator, value text, parentheses and padding", "why_tests_cant": "injectivity over all pairs of rules", "anchors": ["bind.go:BindRule.String", "target.go:TargetRule.String"]}
{"id": "C47", "title": "Rendering of nested bind rules evaluates as written", "statement": "The text of a bind-rule tree that is parenthesised wherever precedence requires it can be read back by a standard boolean reader (NOT before AND before OR) to an expression with the same meaning under every truth assignment.", "quantifier": "every tree of bind rules of any depth and width, with one member per NOT stack and no bare NOT at the top, and every truth assignment", "why_tests_cant": "unbounded trees", "anchors": ["bind.go:BindRules.String"]}
{"id": "C48", "title": "Instruction parsing reports component errors", "statement": "If a target rule or permission-bind rule inside an instruction text is unacceptable, Instruction.Parse returns an error.", "quantifier": "every instruction text", "why_tests_cant": "an error anywhere in an unbounded text", "anchors": ["parse.go:Instruction.Parse", "parse.go:processTargetRules"]}
{"id": "C49", "title": "A group inheritance rule keeps its keyword", "statement": "When a groupattr bind rule whose value is an inheritance (parent[...].attr#value) is read, the inheritance that results carries the keyword groupattr, so that a rule made again from it is a groupattr rule.", "quantifier": "every value text of that form and every in-contract bit library", "why_tests_cant": "The tests read a few literals and compare only the rule's printed text, which takes its keyword from the rule and not from the value.", "anchors": ["/repo/parse.go: assertBindUGAttr", "/repo/levels.go: parseInheritance, Keyword, Eq, Ne", "/repo/attr.go: parseATBTV"]}
{"id": "C50", "title": "A bare keyword never becomes a member of an object identifier list", "statement": "Pushing a TargetKeyword value on an extop or targetcontrol list leaves the members unchanged.", "quantifier": "every keyword and every list state", "why_tests_cant": "ranges over all list states and keyword values", "anchors": ["oid.go:ObjectIdentifiers.Push", "oid.go:ObjectIdentifiers.pushPolicy"]}
{"id": "C51", "title": "Attribute filter operations hold valid distinct members", "statement": "After any sequence of Push and Pop calls with arbitrary arguments an attribute filter operation holds only filters with an attribute and a filter text, no two with equal text; a list of operations holds no empty operation and no two with equal text.", "quantifier": "every finite sequence of Push, Pop and SetDelimiter calls with arbitrary arguments", "why_tests_cant": "Unit tests push a handful of filters; the invariant must survive every history.", "anchors": ["filter.go: AttributeFilterOperation.Push/Pop/pushPolicy/contains, AttributeFilterOperations.Push/Pop/pushPolicy/contains"]}
{"id": "C52", "title": "A rule made from an LDAP URI carries the URI's keyword", "statement": "The bind rule returned by Eq or Ne of an LDAPURI has the keyword that Keyword() of the URI reports.", "quantifier": "every URI value", "why_tests_cant": "Depends on every combination of DN keyword and attr#value keyword.", "anchors": ["uri.go: LDAPURI.makeBindRule, LDAPURI.Keyword"]}
{"id": "C53", "title": "A semicolon-separated operation list keeps its delimiter", "statement": "An attribute filter operation list read from text whose operations are separated by semicolons prints with semicolons.", "quantifier": "every accepted semicolon-separated text", "why_tests_cant": "Quantifies over every list of operations.", "anchors": ["filter.go: parseAttributeFilterOperations, SetDelimiter, String"]}
{"id": "C54", "title": "Attribute options are allowed in targattrfilters rules", "statement": "A targattrfilters value with one operation on an attribute with an option (cn;lang-en) is accepted, as it is by the operation reader.", "quantifier": "every operation on attribute names with options", "why_tests_cant": "Quantifies over every attribute name with options.", "anchors": ["parse.go: assertTargetAttrFilters", "filter.go: parseAttributeFilterOperations"]}
{"id": "C55", "title": "An accepted LDAP URI prints without a formatting panic", "statement": "Printing a URI that the parser accepted never yields the text of a recovered panic.", "quantifier": "every byte string accepted by the parser", "why_tests_cant": "The panic is swallowed by fmt, so no test that only checks for errors sees it.", "anchors": ["uri.go: ldapURI.string, uriAssertATB", "attr.go: atbtv.String, parseATBTV"]}
{"id": "C56", "title": "Target rule lists hold only valid rules", "statement": "After any sequence of Push/Pop calls every member of a TargetRules list reports itself valid.", "quantifier": "every finite sequence of Push and Pop calls with arbitrary rules", "why_tests_cant": "unbounded histories", "anchors": ["target.go:TargetRules.pushPolicy", "target.go:TargetRule.Valid"]}
{"id": "C57", "title": "Quotation style changes only the quotes", "statement": "After any sequence of SetQuoteStyle calls on a multivalued rule its text shows the same values in the same order in the style chosen last, all of them quoted, and keyword, operator, parentheses and padding are unchanged.", "quantifier": "every multivalued rule and every sequence of styles", "why_tests_cant": "unbounded lists of values and histories of style changes", "anchors": ["bind.go:BindRule.SetQuoteStyle", "target.go:TargetRule.SetQuoteStyle", "dn.go:setQuoteStyle", "attr.go:setQuoteStyle", "oid.go:setQuoteStyle"]}
{"id": "C58", "title": "Converting a parsed bind rule keeps what it says", "statement": "When the value of a parsed rule is converted, the resulting rule has the same keyword, operator, parentheses and padding; timeofday, ssf, ip, dns and authmethod rules are accepted exactly for well-formed values and then show the given value in double quotes.", "quantifier": "every parsed rule with any value text", "why_tests_cant": "ranges over all keywords, operators and value texts", "anchors": ["parse.go:BindRule.assertExpressionValue", "parse.go:TargetRule.assertExpressionValue"]}
{"id": "C59", "title": "Stacks of bind rules hold only valid rules", "statement": "After any sequence of Push, Pop, Paren, Fold and NoPadding calls every rule in a BindRules stack reports itself valid.", "quantifier": "every finite sequence of calls with arbitrary rules", "why_tests_cant": "unbounded histories", "anchors": ["bind.go:BindRules.pushPolicy", "bind.go:BindRules.Push"]}
{"id": "C60", "title": "The text of any stack of bind rules means what the stack means", "statement": "The text of any stack built with And, Or and Not, parenthesised or not, is read by a standard boolean reader with the meaning of the stack.", "quantifier": "every tree of bind rules", "why_tests_cant": "unbounded trees and all truth assignments", "anchors": ["bind.go:BindRules.String", "bind.go:And", "bind.go:Or"]}
{"id": "C61", "title": "ParseTargetRule reports a value it cannot use", "statement": "If the value of a target rule text cannot be converted for its keyword, ParseTargetRule (and TargetRule.Parse) return an error.", "quantifier": "every text the grammar accepts", "why_tests_cant": "the value is arbitrary text; every keyword", "anchors": ["parse.go:parseTargetRule", "parse.go:TargetRule.assertExpressionValue"]}
{"id": "C62", "title": "ParseBindRule reports a value it cannot use", "statement": "If the value of a bind rule text cannot be converted for its keyword, ParseBindRule (and BindRule.Parse) return an error.", "quantifier": "every text the grammar accepts", "why_tests_cant": "the value is arbitrary text; every keyword", "anchors": ["parse.go:parseBindRule", "parse.go:BindRule.assertExpressionValue"]}
{"id": "C63", "title": "ParseTargetRules keeps every rule or reports an error", "statement": "ParseTargetRules returns one rule for each rule of the text, in order, or an error.", "quantifier": "every text the grammar accepts, any number of rules", "why_tests_cant": "unbounded number of rules; interaction of the uniqueness policy with parsing", "anchors": ["parse.go:parseTargetRules", "parse.go:processTargetRules", "target.go:TargetRules.pushPolicy"]}
{"id": "C64", "title": "PermissionBindRules.Parse reports any unusable rule and otherwise holds the rules of the text", "statement": "PermissionBindRules.Parse returns an error exactly when the grammar refuses the text or one of its rules cannot be converted; otherwise the list holds the rules in order, each text once.", "quantifier": "every text the grammar accepts, any number of rules", "why_tests_cant": "unbounded number of rules", "anchors": ["parse.go:PermissionBindRules.Parse", "parse.go:processPermissionBindRules", "pb.go:PermissionBindRules.pushPolicy"]}
{"id": "C65", "title": "A valid permission-bind rule has valid bind rules", "statement": "A PermissionBindRule that reports itself valid has a valid permission and valid bind rules, however it was built.", "quantifier": "every argument of PBR and every finite sequence of Set calls", "why_tests_cant": "unbounded histories; arbitrary bind contexts", "anchors": ["pb.go:PBR", "pb.go:PermissionBindRule.Valid", "pb.go:PermissionBindRule.Set"]}
{"id": "C66", "title": "Pushing several values equals pushing them one by one", "statement": "Push with several arguments has the effect of one Push per argument, for PermissionBindRules and Instructions.", "quantifier": "every list and every argument list", "why_tests_cant": "unbounded argument lists, unparsable texts anywhere among them", "anchors": ["pb.go:PermissionBindRules.Push", "ins.go:Instructions.Push"]}
{"id": "C67", "title": "PBRs(x...) equals pushing x... on an empty list", "statement": "The constructor PBRs with arguments gives the list that Push gives on an empty list.", "quantifier": "every argument list", "why_tests_cant": "unbounded argument lists", "anchors": ["pb.go:PBRs", "pb.go:PermissionBindRules.Push"]}
{"id": "C68", "title": "An instruction's text determines its contents", "statement": "Two instructions with the same text have the same label, target rules text and permission-bind rules.", "quantifier": "every two instructions", "why_tests_cant": "pairs of arbitrary instructions with arbitrary labels", "anchors": ["ins.go:Instruction.String", "ins.go:instruction.setLabel"]}
{"id": "C69", "title": "A parsed instruction holds what the text says", "statement": "When every part of an instruction text can be converted, the parsed instruction has its label, its target rules (one per keyword) and its permission-bind rules (each text once), in order.", "quantifier": "every text the grammar accepts", "why_tests_cant": "unbounded numbers of rules", "anchors": ["parse.go:Instruction.Parse", "ins.go:instruction.assertInstruction"]}
{"id": "C70", "title": "Instructions never hold two rules for one target keyword or two equal permission-bind rules", "statement": "After any sequence of Set, Parse, TRs().Push/Pop and PBRs().Push/Pop calls an instruction has at most one target rule per keyword and no two permission-bind rules with equal text, all of the latter valid.", "quantifier": "every finite sequence of calls", "why_tests_cant": "unbounded histories mixing several entry points", "anchors": ["ins.go:Instruction.Set", "parse.go:Instruction.Parse", "target.go:TargetRules.pushPolicy", "pb.go:PermissionBindRules.pushPolicy"]}
{"id": "C71", "title": "A rule made from a value says what the value says", "statement": "For addresses, host names, authentication methods, strength factors, days, times, distinguished names, attribute types, object identifiers, filters, filter operations, scopes, inheritances and their lists: Eq, Ne, Lt, Le, Gt and Ge give a valid rule with the value's keyword, the method's operator and the value's text in double quotes; a value that is not valid gives the zero rule.", "quantifier": "every value of these types, every operator method, both padding settings", "why_tests_cant": "the values are unbounded texts and lists", "anchors": ["net.go:IPAddr.Eq", "net.go:FQDN.Eq", "sec.go:AuthenticationMethod.Eq", "sec.go:SecurityStrengthFactor.Ge", "time.go:DayOfWeek.Eq", "time.go:TimeOfDay.Ge", "dn.go:dnToCondition", "attr.go:AttributeTypes.Eq", "oid.go:ObjectIdentifiers.Eq", "filter.go:SearchFilter.Eq", "filter.go:AttributeFilterOperations.Eq", "scope.go:SearchScope.Eq", "levels.go:Inheritance.Eq"]}
{"id": "C72", "title": "A rule made from an attr#value pair has the pair's keyword", "statement": "The rule made by Eq or Ne of an AttributeBindTypeOrValue has the keyword that value reports.", "quantifier": "every AttributeBindTypeOrValue with a text", "why_tests_cant": "unbounded attribute names and values, several ways to fill a value", "anchors": ["attr.go:AttributeBindTypeOrValue.Eq", "attr.go:AttributeBindTypeOrValue.Ne", "attr.go:AttributeBindTypeOrValue.Set"]}
{"id": "C73", "title": "A BRM table offers exactly the operators of the keyword", "statement": "The table returned by BRM of a valid bind value gives, under every name, number and value of an operator its keyword admits, the method making the rule with that operator, and nothing for other operators.", "quantifier": "every value, every argument designating an operator, every order in which the map is walked", "why_tests_cant": "names are matched ignoring case while ranging over a map in random order", "anchors": ["bind.go:BindRuleMethods.Index", "bind.go:BindRuleMethods.Contains", "bind.go:rangeBindRuleFuncMap", "net.go:IPAddr.BRM", "time.go:TimeOfDay.BRM", "sec.go:SecurityStrengthFactor.BRM"]}
{"id": "C74", "title": "A TRM table offers exactly the operators of the keyword", "statement": "The table returned by TRM of a valid target value gives, under every name, number and value of an operator its keyword admits, the method making the rule with that operator, and nothing for other operators or for arguments naming no operator.", "quantifier": "every value, every argument, every order in which the map is walked", "why_tests_cant": "names are matched ignoring case while ranging over a map in random order", "anchors": ["target.go:TargetRuleMethods.Index", "target.go:TargetRuleMethods.Contains", "target.go:rangeTargetRuleFuncMap", "filter.go:AttributeFilterOperations.TRM", "scope.go:SearchScope.TRM"]}
{"id": "C75", "title": "A BRM table finds nothing under an argument that names no operator", "statement": "Index on a BRM table with a number outside 1..6, an unknown name or a value of another type gives no method.", "quantifier": "every argument", "why_tests_cant": "all integers and all texts", "anchors": ["bind.go:BindRuleMethods.Index"]}
{"id": "C76", "title": "Weekdays and Weekend give the rule over those days", "statement": "Weekdays and Weekend, called with any name, number or value of Eq or Ne, give the dayofweek rule with that operator over exactly Monday to Friday, or Saturday and Sunday; with any other operator they give no rule.", "quantifier": "every argument that designates an operator", "why_tests_cant": "all spellings of the operators, and the random order of the method map", "anchors": ["time.go:Weekdays", "time.go:Weekend"]}
{"id": "C77", "title": "Set on a permission-bind rule replaces only what it is given", "statement": "Set with usable arguments leaves the last permission given, or the former one, and the last bind rules given, or the former ones; an argument it refuses (zero permission, zero or invalid bind rules, a text that does not parse) changes nothing and ends the call; a text that parses replaces both parts.", "quantifier": "every rule and every finite list of arguments", "why_tests_cant": "argument lists are unbounded and of mixed types", "anchors": ["pb.go:PermissionBindRule.Set", "pb.go:permissionBindRule.set"]}
{"id": "C78", "title": "PBR gives the rule of its two arguments or the zero rule", "statement": "PBR with a permission and bind rules gives the rule holding them, whose text is the permission, a blank, the text of the bind rules and a semicolon; without a permission or bind rules it gives the zero rule. A rule lacking either part is not valid and shows the invalid marker; it is zero only if it lacks both.", "quantifier": "every permission and every bind context", "why_tests_cant": "unbounded trees of bind rules", "anchors": ["pb.go:PBR", "pb.go:PermissionBindRule.String", "pb.go:PermissionBindRule.IsZero", "pb.go:PermissionBindRule.Valid"]}
{"id": "C79", "title": "The text of an instruction list has one instruction per line", "statement": "The lines of the text of a non-empty Instructions list are the texts of its instructions in order.", "quantifier": "every list of instructions", "why_tests_cant": "unbounded lists and labels", "anchors": ["ins.go:Instructions.String"]}
{"id": "C80", "title": "Fold, Paren and NoPadding change only the presentation of bind rules", "statement": "Fold changes only the letter case of the boolean words, Paren adds the parentheses, NoPadding the blanks inside them; the last call of each decides, Push and Pop leave them, and they never change the members or the boolean meaning of the stack.", "quantifier": "every stack of bind rules and every finite sequence of calls", "why_tests_cant": "unbounded trees and histories", "anchors": ["bind.go:BindRules.Fold", "bind.go:BindRules.Paren", "bind.go:BindRules.NoPadding", "bind.go:BindRules.String"]}
{"id": "C81", "title": "Contains reports the members of a list", "statement": "Contains answers true exactly when some member has the text of the value (or the keyword, for target rules) it is asked about; so every member of a list is reported, and a text stands for the value Push makes of it.", "quantifier": "every list and every argument", "why_tests_cant": "lists and texts are unbounded", "anchors": ["dn.go:BindDistinguishedNames.Contains", "dn.go:TargetDistinguishedNames.Contains", "oid.go:ObjectIdentifiers.Contains", "attr.go:AttributeTypes.Contains", "filter.go:AttributeFilterOperation.Contains", "filter.go:AttributeFilterOperations.Contains", "target.go:TargetRules.Contains", "pb.go:PermissionBindRules.Contains", "ins.go:Instructions.Contains"]}
{"id": "C82", "title": "Push and Contains agree", "statement": "Push leaves a list unchanged when Contains reports the value, and a value Push has appended is reported by Contains afterwards.", "quantifier": "every list and every argument", "why_tests_cant": "must hold after every history", "anchors": ["dn.go:BindDistinguishedNames.Push", "oid.go:ObjectIdentifiers.Push", "attr.go:AttributeTypes.Push", "filter.go:AttributeFilterOperation.Push", "filter.go:AttributeFilterOperations.Push", "target.go:TargetRules.Push", "pb.go:PermissionBindRules.Push", "ins.go:Instructions.Push"]}
{"id": "C83", "title": "Pop returns the last member and removes it", "statement": "Pop on a non-empty list returns what Index gives for place Len-1, Len falls by one and the other places keep their members; on an empty list it returns the zero value.", "quantifier": "every list", "why_tests_cant": "lists are unbounded", "anchors": ["dn.go:BindDistinguishedNames.Pop", "dn.go:BindDistinguishedNames.Index", "oid.go:ObjectIdentifiers.Pop", "attr.go:AttributeTypes.Pop", "filter.go:AttributeFilterOperation.Pop", "target.go:TargetRules.Pop", "pb.go:PermissionBindRules.Pop", "ins.go:Instructions.Pop", "bind.go:BindRules.Pop"]}
{"id": "C84", "title": "Parse replaces the value or leaves it alone", "statement": "A Parse method either reports an error and leaves its receiver as it was, or replaces it by what the text says, whatever the receiver held; after any sequence of Parse calls the receiver holds what the last accepted text says.", "quantifier": "every receiver, every text and every finite sequence of calls", "why_tests_cant": "texts and call sequences are unbounded", "anchors": ["parse.go:BindRule.Parse", "parse.go:BindRules.Parse", "parse.go:TargetRule.Parse", "parse.go:TargetRules.Parse", "parse.go:Permission.Parse", "parse.go:PermissionBindRule.Parse", "parse.go:PermissionBindRules.Parse", "parse.go:Instruction.Parse", "parse.go:LDAPURI.Parse", "parse.go:AttributeFilterOperations.Parse", "parse.go:AttributeFilterOperation.Parse", "parse.go:AttributeFilter.Parse", "attr.go:AttributeBindTypeOrValue.Parse"]}
{"id": "C85", "title": "Values made by separate calls are independent", "statement": "In a program that copies no variable to another, what each variable shows is the effect of the statements that name it: a method called on one value never changes what another one shows.", "quantifier": "every finite program of constructor and method calls over any number of variables, for distinguished names, permissions, inheritance values, security strength factors, IP addresses, host names, times of day, search filters, attribute filters, LDAP URIs and instructions", "why_tests_cant": "programs and the number of variables are unbounded; the values are structures around pointers", "anchors": ["dn.go:BindDistinguishedName.Set", "dn.go:TargetDistinguishedName.Set", "rights.go:Permission.Shift", "rights.go:Permission.Unshift", "levels.go:Inheritance.Shift", "sec.go:SecurityStrengthFactor.Set", "net.go:IPAddr.Set", "net.go:FQDN.Set", "time.go:TimeOfDay.Set", "filter.go:SearchFilter.Set", "filter.go:AttributeFilter.Set", "uri.go:LDAPURI.Set", "ins.go:Instruction.Set"]}
{"id": "C86", "title": "Changing a copy leaves the original as it was", "statement": "After y := x, methods called on y change what y shows and leave x as it was, and the other way round.", "quantifier": "every finite program of constructor calls, copies and method calls, for the types of C85", "why_tests_cant": "programs are unbounded and sharing depends on the whole history", "anchors": ["dn.go:BindDistinguishedName.Set", "rights.go:Permission.Shift", "levels.go:Inheritance.Shift", "sec.go:SecurityStrengthFactor.Set", "net.go:IPAddr.Set", "net.go:FQDN.Set", "time.go:TimeOfDay.Set", "filter.go:SearchFilter.Set", "filter.go:AttributeFilter.Set", "uri.go:LDAPURI.Set", "ins.go:Instruction.Set"]}
{"id": "C87", "title": "Permission-bind rules and lists of them keep what they were given", "statement": "A permission-bind rule keeps the rights it was made with whatever happens later to the permission; a list keeps the members it accepted, and stays free of duplicates.", "quantifier": "every finite program that makes permissions and rules, copies them, calls Shift, Unshift and Set on them and pushes rules to a list", "why_tests_cant": "programs are unbounded and sharing depends on the whole history", "anchors": ["pb.go:PBR", "pb.go:PermissionBindRule.Set", "pb.go:PermissionBindRules.Push", "rights.go:Permission.Shift", "rights.go:Permission.Unshift"]}
{"id": "C88", "title": "Lists of distinguished names keep what they were given", "statement": "A list of bind distinguished names keeps the names it accepted, as they were when pushed, and stays free of duplicates.", "quantifier": "every finite program that makes names, copies them, calls Set on them and pushes them to a list", "why_tests_cant": "programs are unbounded and sharing depends on the whole history", "anchors": ["dn.go:BindDistinguishedNames.Push", "dn.go:BindDistinguishedName.Set"]}
{"id": "C89", "title": "Compare decides equality of values", "statement": "Two values compare equal exactly when they are the same kind of value with the same meaning; Compare never panics.", "quantifier": "every pair of values of the types that have a Compare method, or that Compare accepts", "why_tests_cant": "pairs of values are unbounded, and the answer depends on text and hash of both", "anchors": ["misc.go:compareHashInstance", "misc.go:hashInstance", "dn.go:BindDistinguishedName.Compare", "rights.go:Permission.Compare", "time.go:DayOfWeek.Compare", "time.go:TimeOfDay.Compare", "ins.go:Instruction.Compare"]}
{"id": "C90", "title": "Hash is a fixed-size fingerprint of the text", "statement": "Hash gives 40 upper case hexadecimal digits and no error for every value that can be printed, an error and no text otherwise; values with the same text have the same hash, and with different texts the same hash only if SHA-1 collides.", "quantifier": "every value of the types that have a Hash method", "why_tests_cant": "values and texts are unbounded", "anchors": ["misc.go:hashInstance", "misc.go:HashInstance", "ins.go:Instruction.Hash", "dn.go:BindDistinguishedName.Hash"]}
{"id": "C91", "title": "The keyword a value reports is the keyword of the rules it makes", "statement": "For every value with a Keyword method, Keyword reports the keyword of every rule that Eq, Ne and the other rule-making methods of that value produce.", "quantifier": "every value and rule-making method", "why_tests_cant": "values are unbounded; the keyword is kept apart from the rule", "anchors": ["dn.go:BindDistinguishedName.Keyword", "dn.go:BindDistinguishedNames.Keyword", "dn.go:TargetDistinguishedNames.Keyword", "levels.go:Inheritance.Keyword", "oid.go:ObjectIdentifier.Keyword", "oid.go:ObjectIdentifiers.Keyword", "attr.go:AttributeTypes.Keyword", "net.go:FQDN.Keyword", "filter.go:SearchFilter.Keyword"]}
{"id": "C92", "title": "F makes what Push would make of the same text", "statement": "For every list, pushing F()(text) has the same effect as pushing the text.", "quantifier": "every list and every text", "why_tests_cant": "lists and texts are unbounded", "anchors": ["dn.go:BindDistinguishedNames.F", "dn.go:TargetDistinguishedNames.F", "oid.go:ObjectIdentifiers.F", "attr.go:AttributeTypes.F", "filter.go:AttributeFilterOperation.F", "filter.go:AttributeFilterOperations.F", "ins.go:Instructions.F"]}
{"id": "C93", "title": "IsZero, Valid, Len and String agree", "statement": "A zero value is not valid, has length 0 and prints as invalid or as nothing; a valid value is not zero, does not print as invalid, and a value of a type that counts 0 or 1 has length 1.", "quantifier": "every value of every type with these methods", "why_tests_cant": "values are unbounded; the four answers are computed by separate code", "anchors": ["rights.go:Permission.IsZero", "dn.go:BindDistinguishedName.Valid", "oid.go:ObjectIdentifier.Len", "attr.go:AttributeType.Len", "sec.go:SecurityStrengthFactor.Valid", "uri.go:LDAPURI.Len", "net.go:FQDN.Valid", "time.go:DayOfWeek.Valid", "levels.go:Inheritance.Len"]}
{"id": "C94", "title": "An object identifier made from several arguments is the last of them", "statement": "Ctrl and ExtOp give the identifier their last text or identifier argument stands for, whatever precedes it; if that one cannot be read, or there is none, the result is not valid. Arguments of other types have no effect.", "quantifier": "every argument list and every notion of well-formed dotted number", "why_tests_cant": "argument lists are unbounded", "anchors": ["oid.go:Ctrl", "oid.go:ExtOp", "oid.go:newObjectID", "oid.go:ObjectIdentifier.set"]}
{"id": "C95", "title": "What Traverse returns is the rule itself", "statement": "A rule reached by Traverse is the rule held in the structure: a change made through it shows at that place of the structure, the shape of the structure stays as it was, every rule other than that one stays as it was, and no unrelated structure changes.", "quantifier": "every nesting of stacks, with or without sharing, every path to a rule, every changing method of a rule", "why_tests_cant": "nestings, paths and sharing patterns are unbounded", "anchors": ["bind.go:BindRules.Traverse", "bind.go:BindRule.Traverse", "bind.go:BindRule.SetExpression", "bind.go:BindRule.SetOperator", "bind_test.go:ExampleBindRules_Traverse_andWrite"]}
{"id": "C96", "title": "Every bind rule stack prints as a finite text", "statement": "Whatever sequence of Push, Pop, Index, Traverse, Replace, assignments and settings built it, a bind rule stack stands for a finite nesting of rules, so that its text and its validity can be computed.", "quantifier": "every sequence of statements over any number of variables", "why_tests_cant": "sequences are unbounded and stacks are shared between variables", "anchors": ["bind.go:BindRules.Push", "bind.go:BindRules.Replace", "bind.go:BindRules.pushPolicy", "bind.go:BindRules.String"]}
{"id": "C97", "title": "Index, Push, Pop and Replace address members and nothing else", "statement": "Index(i) gives member i or nothing; Push adds its argument at the end if it is acceptable; Pop gives the last member and removes it; Replace exchanges one member; and none of these, nor a setting, changes what another variable shows unless that variable holds the stack in question.", "quantifier": "every state of every number of variables, with any sharing between stacks", "why_tests_cant": "states and sharing patterns are unbounded", "anchors": ["bind.go:BindRules.Index", "bind.go:BindRules.Push", "bind.go:BindRules.Pop", "bind.go:BindRules.Replace", "bind.go:BindRules.Paren", "bind.go:BindRules.Fold", "bind.go:BindRules.NoPadding"]}
{"id": "C98", "title": "Every keyword reads its values by its own rules", "statement": "When a parsed rule's raw values are converted, the keyword alone decides how: days, names, attribute/value pairs with or without inheritance levels, URIs, scopes, filters, attribute lists, object identifiers and attribute filter operations are accepted exactly under the conditions for that keyword; the rule then prints the same keyword, operator, parentheses and padding with the value read, quoted in the requested style; and everything else is refused, or crashes in one exactly described case.", "quantifier": "every keyword in every spelling, every operator and display setting, every list of value texts", "why_tests_cant": "value texts are unbounded and every keyword has its own reader", "anchors": ["parse.go:BindRule.assertExpressionValue", "parse.go:TargetRule.assertExpressionValue", "parse.go:assertBindUGRDN", "parse.go:assertBindUGAttr", "parse.go:assertBindDayOfWeek", "parse.go:assertTargetScope", "parse.go:assertTargetFilter", "parse.go:assertTargetAttributes", "parse.go:assertTargetOID", "parse.go:assertTargetTFDN", "parse.go:assertTargetAttrFilters"]}
{"id": "C99", "title": "An instruction prints exactly its parts and keeps them when Parse fails", "statement": "The text of an instruction is its target rules one after the other, then the version, the label in quotation marks and the permission bind rules in one pair of parentheses; the label is the first non-empty text it was given; Parse replaces the whole instruction when it succeeds and leaves it as it was when it fails.", "quantifier": "every instruction, every sequence of Set arguments, every text given to Parse", "why_tests_cant": "contents and sequences are unbounded", "anchors": ["ins.go:Instruction.String", "ins.go:Instruction.Set", "ins.go:instruction.setLabel", "parse.go:Instruction.Parse"]}
{"id": "C100", "title": "The setters of a rule change what they name and nothing else", "statement": "SetKeyword sets the keyword, SetOperator sets the operator when the keyword permits it and otherwise changes nothing, SetExpression sets the expression, Paren and NoPadding set the display; no setter touches another part of the rule; and the text of a rule is made of exactly these parts.", "quantifier": "every state of a bind or target rule, every argument of every setter", "why_tests_cant": "rule states and argument types are unbounded", "anchors": ["bind.go:BindRule.SetKeyword", "bind.go:BindRule.SetOperator", "bind.go:BindRule.SetExpression", "bind.go:BindRule.String", "target.go:TargetRule.SetKeyword", "target.go:TargetRule.SetOperator", "target.go:TargetRule.SetExpression", "target.go:TargetRule.String", "target.go:TargetRules.String"]}
{"id": "C101", "title": "Constructor arguments go to the place their type names", "statement": "The arguments of the URI, attribute filter and attribute filter operation constructors and setters are placed by type: the last of a type wins, a name and a filter may come in either order, an operation replaces the operation and keeps the members, a delimiter changes the delimiter only, and a text that reads as a URI is the URI.", "quantifier": "every list of arguments and every previous state", "why_tests_cant": "argument lists are unbounded and of mixed types", "anchors": ["uri.go:LDAPURI.set", "uri.go:URI", "filter.go:atf.set", "filter.go:AF", "filter.go:AttributeFilterOperation.Push", "filter.go:AttributeFilterOperations.SetDelimiter"]}
{"id": "C102", "title": "Days can be given as the documented numbers", "statement": "Monday to Friday can be expressed by the number sixty-two and the weekend by the number sixty-five, as the documentation of Weekdays and Weekend says, and a Day that is a sum of day constants stands for those days.", "quantifier": "every number given as a Day or as an int", "why_tests_cant": "there are many sums and the constants' values are computed by the compiler", "anchors": ["time.go:Weekdays", "time.go:Weekend", "time.go:Day", "time.go:DoW", "time.go:DayOfWeek.Shift"]}
{"id": "C103", "title": "A rule made from a list keeps its text when the list changes", "statement": "A bind or target rule made by a method of a list of names, attribute types or identifiers is a snapshot: Push, Pop and the other methods of the list, called afterwards, do not change the text of the rule.", "quantifier": "every program of constructors, list methods, rule methods and assignments", "why_tests_cant": "programs are unbounded and variables may share lists and rules", "anchors": ["dn.go:BindDistinguishedNames.Eq", "dn.go:TargetDistinguishedNames.Eq", "attr.go:AttributeTypes.Eq", "oid.go:ObjectIdentifiers.Eq", "stackage.go:castAsStack"]}
{"id": "C104", "title": "Choosing a quotation style for one rule leaves all other rules alone", "statement": "SetQuoteStyle on a rule changes the text of that rule and of no other rule.", "quantifier": "every program of constructors, list methods, rule methods and assignments, every pair of rules", "why_tests_cant": "programs are unbounded and rules may share a list", "anchors": ["bind.go:BindRule.SetQuoteStyle", "target.go:TargetRule.SetQuoteStyle"]}
{"id": "C105", "title": "The values of a rule made from a list are always in quotation marks", "statement": "Whatever is done with the list and the rule, the values print either all in one pair of quotation marks or each in its own pair.", "quantifier": "every program of constructors, list methods, rule methods and assignments", "why_tests_cant": "programs are unbounded", "anchors": ["bind.go:BindRule.SetQuoteStyle", "target.go:TargetRule.SetQuoteStyle", "bind.go:BindRule.SetExpression", "target.go:TargetRule.SetExpression"]}
{"id": "C106", "title": "A rule made from a single value keeps its text when the value changes", "statement": "A rule made by a method (Eq, Ne, ...) of an address, host name, strength factor, time of day, distinguished name, search filter or inheritance value is a snapshot: Set, Shift and Unshift on the value, called afterwards, do not change the text of the rule.", "quantifier": "every type, every program of assignments, method calls and rule constructions", "why_tests_cant": "programs are unbounded and variables share pointers", "anchors": ["net.go:IPAddr.Eq", "net.go:FQDN.Eq", "sec.go:SecurityStrengthFactor.Eq", "time.go:TimeOfDay.Eq", "dn.go:BindDistinguishedName.Eq", "dn.go:TargetDistinguishedName.Eq", "filter.go:SearchFilter.Eq", "levels.go:Inheritance.Eq"]}
{"id": "C107", "title": "The target rules of a list always have different keywords", "statement": "Whatever is done with a TargetRules list, with the rules pushed to it and with the rules Index and Pop give back, no two rules of the list have the same keyword, and it never has more than nine rules.", "quantifier": "every program of rule constructors, rule methods, Push, Pop, Index, NoPadding, assignments, Set and TRs over any number of variables", "why_tests_cant": "programs are unbounded and rules are shared between variables and lists", "anchors": ["target.go:TargetRules.Push", "target.go:TargetRules.pushPolicy", "target.go:TargetRules.Pop", "target.go:TargetRules.Index", "target.go:TargetRule.SetKeyword", "target.go:TRs"]}
{"id": "C108", "title": "An instruction changes only through its own methods", "statement": "What an Instruction shows changes only when Set is called on it: the rules and lists given to Set can be changed afterwards without an effect on it, and so can the list TRs() returns.", "quantifier": "every program of rule constructors, rule methods, Push, Pop, Index, NoPadding, assignments, Set and TRs over any number of variables", "why_tests_cant": "programs are unbounded and rules and lists are shared between variables and instructions", "anchors": ["ins.go:Instruction.Set", "ins.go:instruction.assertInstruction", "ins.go:instruction.targetPush", "ins.go:Instruction.TRs", "ins.go:Instruction.String"]}
{"id": "C109", "title": "NoPadding alone decides the spacing of a list of target rules", "statement": "The text of a TargetRules list is the texts of its rules in order, with a blank between two rules exactly when the last NoPadding with an argument on that list was given false; a new list has none; no other call changes that, and NoPadding does not change the rules.", "quantifier": "every program over any number of list, rule and instruction variables", "why_tests_cant": "programs are unbounded", "anchors": ["target.go:TargetRules.NoPadding", "target.go:TargetRules.String", "target.go:TRs"]}
{"id": "C110", "title": "A bind context can be read through its inspection methods", "statement": "A program that calls only Kind, Category, IsParen, Len and Index on a BindRules value, and Category and String on the rules it finds, sees every rule and stack of the structure exactly once and in order, and the boolean value of what it sees is the boolean value of the structure. Over every history of Push, Pop, Paren, Fold and NoPadding the category stays the word of the constructor, IsParen is the last state given to Paren, Index answers exactly below Len, and IsNesting reports whether a member is a stack.", "quantifier": "every BindRules value of any depth and size, every history of calls, every truth assignment to the rules", "why_tests_cant": "structures and histories are unbounded", "anchors": ["bind.go:BindContext", "bind.go:BindRules.Category", "bind.go:BindRules.Len", "bind.go:BindRules.Index", "bind.go:BindRules.IsNesting", "bind.go:BindRules.IsParen", "bind.go:And", "bind.go:Or", "bind.go:Not"]}
{"id": "C111", "title": "Category, Keyword, ID, Len and Traverse report what BindContext documents", "statement": "Category of a rule is the text of its keyword, or the zero string when none is set; Category of a stack is and, or or not; ID is bind in all scenarios; Traverse returns a context or nil; a rule never nests and is its own member. The methods of the same name of TargetRule behave alike.", "quantifier": "every rule, every keyword text in any letter case, every stack, every result of the stack library", "why_tests_cant": "keyword texts and structures are unbounded", "anchors": ["bind.go:BindContext", "bind.go:BindRule.Category", "bind.go:BindRule.ID", "bind.go:BindRule.Len", "bind.go:BindRule.Index", "bind.go:BindRules.Keyword", "bind.go:BindRules.Traverse", "target.go:TargetRule.Category", "target.go:TargetRule.ID", "target.go:TargetRule.Len"]}
{"id": "C112", "title": "OID gives an object identifier of the keyword it is given", "statement": "OID(x, kw) returns an ObjectIdentifier for every Keyword; it is valid exactly when the argument is an object identifier, and then has the keyword kw, which is one of targetcontrol and extop.", "quantifier": "every argument, every keyword, every behaviour of the object identifier library", "why_tests_cant": "texts are unbounded and the keyword is an interface value of either kind", "anchors": ["oid.go:OID", "oid.go:newObjectID", "oid.go:objectIdentifier.set", "oid.go:ObjectIdentifier.Valid"]}
{"id": "C113", "title": "Operations and lists of operations keep valid, distinct members whatever is done with the values given to or taken from them", "statement": "An AttributeFilterOperation never holds two filters of equal text or a filter without attribute or filter text, and an AttributeFilterOperations never holds an empty operation or two of equal text, in any program that makes, copies, sets, pushes, pops and indexes search filters, attribute filters, operations and lists. A statement changes what a variable shows only if it concerns the variable or something it is made of.", "quantifier": "every program of any length over any number of variables", "why_tests_cant": "programs and the sharing between values are unbounded", "anchors": ["filter.go:AttributeFilterOperation.Push", "filter.go:AttributeFilterOperation.Pop", "filter.go:AttributeFilterOperation.Index", "filter.go:AttributeFilterOperations.Push", "filter.go:AttributeFilterOperations.Pop", "filter.go:AttributeFilterOperations.Index", "filter.go:AttributeFilter.Set", "filter.go:SearchFilter.Set", "filter.go:AFO", "filter.go:AFOs"]}
{"id": "C114", "title": "A rule made from attribute filter operations keeps its text", "statement": "The TargetRule that Eq of an AttributeFilterOperation or AttributeFilterOperations returns keeps its text, whatever is later done with the operation, the list or their filters.", "quantifier": "every program before and after the call of Eq", "why_tests_cant": "programs and the sharing between values are unbounded", "anchors": ["filter.go:AttributeFilterOperation.Eq", "filter.go:AttributeFilterOperations.Eq"]}
{"id": "C115", "title": "An attribute filter changes only through its own Set", "statement": "What an AttributeFilter shows changes only when Set is called on it, through any variable that holds it; Set on the search filter it was made from or that was read from it has no effect on it.", "quantifier": "every program over search filters, attribute filters and operations", "why_tests_cant": "programs and the sharing between values are unbounded", "anchors": ["filter.go:AttributeFilter.Set", "filter.go:AttributeFilter.SearchFilter", "filter.go:SearchFilter.Set", "filter.go:AF"]}
{"id": "C116", "title": "Set on an attr#value pair assigns an attribute or value only where none is set", "statement": "AttributeBindTypeOrValue.Set assigns each AttributeType, AttributeValue, BindType or string to the attribute or the value of the pair only if that is not set yet, so that values may be given to ABTV, UAT, GAT and Set at once or piecemeal with the same outcome.", "quantifier": "every list of arguments split over any number of calls, every keyword", "why_tests_cant": "argument lists and call histories are unbounded", "anchors": ["attr.go:AttributeBindTypeOrValue.Set", "attr.go:atbtv.set", "attr.go:ABTV", "attr.go:UAT", "attr.go:GAT"]}
{"id": "C117", "title": "Attribute filters may be given variadic or piecemeal; the last attribute and the last filter count", "statement": "After AF and any number of Set calls, AttributeType returns the last attribute given and SearchFilter the last filter given, where a string counts as an attribute if it is an identifier and as a filter otherwise; the text is attribute:filter if both were given and empty otherwise; the outcome does not depend on how the arguments are split over calls.", "quantifier": "every list of arguments split over any number of calls", "why_tests_cant": "argument lists and call histories are unbounded", "anchors": ["filter.go:AF", "filter.go:AttributeFilter.Set", "filter.go:AttributeFilter.AttributeType", "filter.go:AttributeFilter.SearchFilter", "filter.go:AttributeFilter.String"]}
{"id": "C118", "title": "IsZero tells values that nothing was ever stored in", "statement": "IsZero of an address list, a name, a day value, a clock time, a strength factor, a search filter, an LDAP URI, a permission/bind pair or an instruction returns true exactly when nothing was ever stored in the value.", "quantifier": "every history of calls on the value", "why_tests_cant": "histories of calls and their arguments are unbounded", "anchors": ["net.go:IPAddr.IsZero", "net.go:FQDN.IsZero", "time.go:DayOfWeek.IsZero", "time.go:TimeOfDay.IsZero", "sec.go:SecurityStrengthFactor.IsZero", "filter.go:SearchFilter.IsZero", "uri.go:LDAPURI.IsZero", "pb.go:PermissionBindRule.IsZero", "ins.go:Instruction.IsZero"]}
{"id": "C119", "title": "Enumeration constants print their own names; other numbers print a mark that is no name", "statement": "String of a bind keyword, target keyword, bind type, right, day, search scope, authentication method or attribute operation prints a name of its own for each constant, and one and the same mark, that is no constant's name, for every other number.", "quantifier": "every constant and every other number of each enumeration; every order of iteration over the table of authentication methods", "why_tests_cant": "the numbers are not only the constants, and the order of iteration over a map is arbitrary", "anchors": ["kw.go:BindKeyword.String", "kw.go:TargetKeyword.String", "kw.go:BindType.String", "rights.go:Right.String", "time.go:Day.String", "scope.go:SearchScope.String", "sec.go:AuthenticationMethod.String", "filter.go:AttributeOperation.String"]}
{"id": "C120", "title": "Operator tells the operator a rule prints, built or parsed", "statement": "After any sequence of calls on a bind rule or target rule, Operator returns the operator the rule prints, or the zero operator when it prints none, whether the rule was built or parsed; and a target rule that prints a keyword, an operator admitted for it and a value reports itself valid.", "quantifier": "every text, every parser result, every sequence of calls on the rule", "why_tests_cant": "texts, arguments and histories of calls are unbounded", "anchors": ["stackage.go:castCop", "bind.go:BindRule.Operator", "bind.go:BindRule.SetOperator", "target.go:TargetRule.Operator", "target.go:TargetRule.SetOperator", "target.go:TargetRule.Valid", "cop.go:keywordAllowsComparisonOperator", "parse.go:parseTargetRule", "parse.go:parseBindRule"]}
{"id": "C121", "title": "AllDN, AnyDN, SelfDN and ParentDN mean what they say throughout a program", "statement": "In any program that assigns nothing to AllDN, AnyDN, SelfDN and ParentDN and calls no method that writes on them, these names print ldap:///all, ldap:///anyone, ldap:///self and ldap:///parent, rules and lists given them keep them, and which texts are read as names does not depend on what the program did before.", "quantifier": "every program made of constructor calls, copies, Set calls and pushes on a list; every text read afterwards", "why_tests_cant": "programs are unbounded, and a change shows only when another part of the program uses the same name", "anchors": ["dn.go:AllDN", "dn.go:AnyDN", "dn.go:SelfDN", "dn.go:ParentDN", "dn.go:init", "dn.go:isDNAlias", "dn.go:isInvalidDNSyntax", "dn.go:BindDistinguishedName.Set", "dn.go:distinguishedName.set"]}
{"id": "C122", "title": "Valid of a method table speaks for every method in it", "statement": "The tables that BRM and TRM return are never nil except for attribute lists of a URI; Valid of such a table never panics, and it reports no error exactly when every method the table offers gives a valid rule, so checking one table is as good as trying all of its methods.", "quantifier": "every value of every type that has a table, valid or not; every argument of Index; every order of the map", "why_tests_cant": "values are unbounded and the order of a map is not fixed", "anchors": ["bind.go:BindRuleMethods.Valid", "bind.go:BindRuleMethods.IsZero", "bind.go:BindRuleMethods.Len", "bind.go:BindRuleMethods.Index", "target.go:TargetRuleMethods.Valid", "target.go:TargetRuleMethods.IsZero", "target.go:TargetRuleMethods.Len", "target.go:TargetRuleMethods.Index", "uri.go:LDAPURI.BRM"]}
{"id": "C123", "title": "The text of a bind rule comes back", "statement": "Take the text that String gives for a rule made by a method (Eq, Ne, Lt, ...) of a value valid for bind rules. Its keyword, operator and values between the bars, taken apart the only way they can be and handed to Parse's conversion, are read without an error, as a rule with exactly the same text.", "quantifier": "every keyword, operator, presentation flag and value (histories of pushes, shifts and sets included), and every way of cutting the text", "why_tests_cant": "values are unbounded texts and histories; a counterexample needs a particular byte or length", "anchors": ["parse.go:parseBindRule", "parse.go:BindRule.assertExpressionValue", "bind.go:BindRule.String", "net.go:IPAddr.Eq", "net.go:FQDN.Eq", "dn.go:BindDistinguishedNames.Eq", "uri.go:LDAPURI.Eq", "levels.go:Inheritance.Eq", "time.go:DayOfWeek.Eq"]}
{"id": "C124", "title": "The text of a target rule comes back", "statement": "Take the text that String gives for a rule made by a method (Eq, Ne) of a value valid for target rules. Its keyword, operator and values between the bars, taken apart the only way they can be and handed to Parse's conversion, are read without an error, as a rule with exactly the same text.", "quantifier": "every keyword, operator, presentation flag and value, and every way of cutting the text", "why_tests_cant": "values are unbounded texts and lists; a counterexample needs particular members or delimiters", "anchors": ["parse.go:parseTargetRule", "parse.go:TargetRule.assertExpressionValue", "target.go:TargetRule.String", "attr.go:AttributeTypes.Eq", "filter.go:SearchFilter.Eq", "filter.go:AttributeFilterOperations.Eq", "oid.go:ObjectIdentifiers.Eq", "dn.go:TargetDistinguishedNames.Eq"]}
{"id": "C125", "title": "RulePadding and StackPadding decide for what is made afterwards", "statement": "A rule made by BR or TR has blanks around its operator and inside its parentheses as RulePadding was when it was made, a stack (bind rules, lists of values, lists of target rules) as StackPadding was; NoPadding on an instance overrides that; and assigning a variable never changes an instance made before.", "quantifier": "every program of assignments, constructors, NoPadding and Paren calls over any number of instances", "why_tests_cant": "programs are unbounded; a test fixes one order of assignments and calls", "anchors": ["misc.go:RulePadding", "misc.go:StackPadding", "bind.go:newBindRule", "target.go:newTargetRule", "bind.go:And", "bind.go:Or", "bind.go:Not", "dn.go:UDNs", "oid.go:ExtOps", "attr.go:TAs", "target.go:TRs", "bind.go:BindRule.NoPadding", "bind.go:BindRules.NoPadding", "target.go:TargetRule.NoPadding"]}
{"id": "C126", "title": "Error messages tell what was refused", "statement": "A reader returns an error exactly when it refuses its input; the message shows the refused text letter for letter, percent signs included, or the first part of it that was wrong; an error that compares two values is there exactly when they differ and shows both; a refused push names the candidate's type, the list's type and the keyword; and no message contains a complaint of the formatter.", "quantifier": "every text given to a reader, every pair of values compared, every candidate, list, keyword and cause", "why_tests_cant": "texts are unbounded and may contain formatting verbs", "anchors": ["err.go:errorf", "err.go:badInhErr", "err.go:badAttributeBindTypeOrValueErr", "err.go:dowBadDayErr", "err.go:badClockTimeErr", "err.go:badSecurityStrengthFactorErr", "err.go:badAMErr", "err.go:badIPErr", "err.go:badDNSErr", "err.go:pushErrorNilOrZero", "err.go:pushErrorNotUnique", "err.go:pushErrorBadType", "attr.go:parseATBTV", "levels.go:parseInheritance", "time.go:parseDoW", "time.go:DayOfWeek.Valid"]}
{"id": "C127", "title": "The attribute part of an inheritance, reached through it, and its levels do not disturb each other", "statement": "An Inheritance gives access to its attribute part: its Set and Parse methods and its BindKeyword and AttributeBindTypeOrValue fields. In whatever order these, Shift and Unshift are used, and under whatever names, the levels are those of the Shift and Unshift calls alone and the attribute part is that of the other statements alone; no statement panics; Parse keeps the keyword; and what is done to the attribute value an inheritance was made with does not show in the inheritance.", "quantifier": "every program of constructors, copies, Shift, Unshift, Set, Parse and assignments of fields over any number of attribute values and inheritances", "why_tests_cant": "programs, the number of variables and the ways they share structures are unbounded", "anchors": ["levels.go:Inheritance", "levels.go:inheritance", "levels.go:Inherit", "levels.go:Inheritance.Shift", "levels.go:Inheritance.Unshift", "levels.go:Inheritance.Positive", "attr.go:AttributeBindTypeOrValue", "attr.go:AttributeBindTypeOrValue.Set", "attr.go:AttributeBindTypeOrValue.Parse"]}
{"id": "C128", "title": "What a list has admitted stays admissible", "statement": "The rules in a list of permission and bind rule pairs are valid, and the identifiers in a list of object identifiers are valid and of the list's keyword, at every moment of a program, whatever is done through the fields P and B of the rules and TargetKeyword and DotNotation of the identifiers before or after pushing; and reading or assigning a field never panics.", "quantifier": "every program of constructors, copies, Shift, Unshift, Set, Push and assignments of fields over any number of variables", "why_tests_cant": "programs and their sharing are unbounded; a test fixes one history", "anchors": ["pb.go:PermissionBindRule", "pb.go:PBR", "pb.go:PermissionBindRule.Set", "pb.go:PermissionBindRules.Push", "oid.go:ObjectIdentifier", "oid.go:newObjectID", "oid.go:ObjectIdentifiers.Push", "oid.go:ObjectIdentifier.Valid"]}
{"id": "C129", "title": "A read-only list keeps its members", "statement": "From the moment ReadOnly is set on a BindRules or TargetRules until it is cleared, the members of the list and their order do not change, whatever the program does and under whatever name it reaches the list: Push and Replace do nothing and Pop returns nothing. ReadOnly acts on the list, so every name of it sees the bit, no other list does, a new list is writable, and a list whose bit is clear behaves as if there were no bit.", "quantifier": "every program of constructors, copies, Push, Pop, Replace, Index, Traverse, settings, rule methods, Set, TRs and ReadOnly calls over any number of variables, whatever ReadOnly without an argument does to a set bit and whether or not the bit covers the settings", "why_tests_cant": "programs and the ways lists are shared are unbounded; a test shows one refused call", "anchors": ["bind.go:BindRules.ReadOnly", "bind.go:BindRules.Push", "bind.go:BindRules.Pop", "bind.go:BindRules.Replace", "target.go:TargetRules.ReadOnly", "target.go:TargetRules.Push", "target.go:TargetRules.Pop"]}
{"id": "C130", "title": "The text of a read-only list does not change", "statement": "While a BindRules or TargetRules is read-only, String returns the same text.", "quantifier": "every program between the moment the bit is set and the moment it is cleared", "why_tests_cant": "programs and sharing are unbounded", "anchors": ["bind.go:BindRules.ReadOnly", "bind.go:BindRules.Index", "bind.go:BindRule.SetExpression", "target.go:TargetRules.ReadOnly", "target.go:TargetRules.Index", "target.go:TargetRule.SetExpression"]}
{"id": "C131", "title": "Set passes over the target rules when the list of the instruction is read-only, and only those", "statement": "If the list of target rules of an Instruction, reached through TRs, is read-only, Set with any arguments does what Set does with the same arguments less the TargetRule and TargetRules ones; the list stays as it is and nothing is reported. If it is not read-only Set is not affected by the bits of any other list.", "quantifier": "every argument list of Set, every state", "why_tests_cant": "argument lists and states are unbounded", "anchors": ["ins.go:Instruction.Set", "ins.go:Instruction.TRs", "ins.go:instruction.assertInstruction", "target.go:TargetRules.ReadOnly"]}
{"id": "C132", "title": "A statement changes the texts of what it is called on, and of what is made of that, only", "statement": "In a program that mixes permissions, bind rules and stacks of them, permission-bind rules, target rules, instructions and lists of all of these, the text of a variable changes only through a statement that assigns the variable or calls a changing method on an object the text is made of. Variables that have no object in common do not affect each other, and an instruction just parsed has no object in common with anything else.", "quantifier": "every program over any number of variables, every way objects are shared, and every behaviour of the parser", "why_tests_cant": "programs and sharing are unbounded", "anchors": ["ins.go:Instruction.Set", "ins.go:Instruction.TRs", "ins.go:Instruction.PBRs", "ins.go:Instructions.Push", "ins.go:Instructions.Pop", "ins.go:Instructions.Index", "pb.go:PermissionBindRule.Set", "pb.go:PermissionBindRules.Push", "rights.go:Permission.Shift", "bind.go:BindRules.Push", "target.go:TargetRules.Push", "parse.go:Instruction.Parse"]}
{"id": "C133", "title": "The instructions in a list print different texts", "statement": "At every moment no two members of an Instructions list print the same text, case and white space apart.", "quantifier": "every program over any number of variables, with instructions and their parts shared in any way", "why_tests_cant": "programs and sharing are unbounded", "anchors": ["ins.go:Instructions.Push", "ins.go:Instructions.Contains", "ins.go:Instruction.Set", "ins.go:Instructions.Index"]}
{"id": "C134", "title": "The permission-bind rules in a list are valid and print different texts", "statement": "At every moment all members of a PermissionBindRules list, on its own or inside an instruction, are valid and no two of them print the same text, case apart.", "quantifier": "every program over any number of variables, with permissions, bind rules and stacks shared in any way", "why_tests_cant": "programs and sharing are unbounded", "anchors": ["pb.go:PermissionBindRules.Push", "pb.go:PermissionBindRules.Contains", "pb.go:PermissionBindRule.Set", "rights.go:Permission.Shift"]}
{"id": "C135", "title": "Set and Push on shared objects do what they do on values", "statement": "Set on an instruction that shares its parts with other variables gives the instruction that Set gives for the values these parts have at that moment, one argument after the other, and assigns no variable; a zero instruction first becomes an empty one. Push on an Instructions list appends the instruction exactly when no member prints its text, case and white space apart.", "quantifier": "every state a program can reach and every argument list", "why_tests_cant": "states, sharing and argument lists are unbounded", "anchors": ["ins.go:Instruction.Set", "ins.go:instruction.assertInstruction", "ins.go:newACI", "ins.go:Instructions.Push"]}
{"id": "C136", "title": "A permission-bind rule in a list stays valid", "statement": "Whatever a program does to a permission-bind rule after it was pushed, to its permission, its bind rule, the stacks inside it or the instruction that holds the list, Valid reports no error for it as long as it is in a PermissionBindRules list.", "quantifier": "every program over any number of variables, with all objects shared in any way, and every behaviour of the parser", "why_tests_cant": "programs and sharing are unbounded", "anchors": ["pb.go:PermissionBindRule.Valid", "pb.go:PermissionBindRule.Set", "pb.go:PermissionBindRules.Push", "ins.go:Instruction.PBRs", "rights.go:Permission.Unshift"]}
{"id": "C137", "title": "Every method does to shared objects what it does to values", "statement": "Each constructor and method on permissions, bind rules, stacks of bind rules, permission-bind rules, target rules, instructions and the lists of these changes the object it is called on to the value the method gives for the values the arguments have at that moment, whoever else shares them. Index and the accessors of an instruction assign an alias, not a copy. A stack pushed into itself, directly or through its members, has no text any more.", "quantifier": "every state a program can reach, with objects shared in any way, and every argument", "why_tests_cant": "states, sharing and argument lists are unbounded", "anchors": ["rights.go:Permission.Shift", "bind.go:BindRules.Push", "bind.go:BindRules.Pop", "bind.go:BindRules.Index", "bind.go:BindRules.Replace", "pb.go:PBR", "pb.go:PermissionBindRule.Set", "pb.go:PermissionBindRules.Push", "pb.go:PermissionBindRules.Pop", "target.go:TargetRules.Push", "ins.go:Instruction.TRs", "ins.go:Instruction.PBRs", "ins.go:Instructions.Push", "ins.go:Instructions.Pop"]}
{"id": "C138", "title": "Goroutines that change no object they have in common get, under every schedule, the results they would get alone", "statement": "Any number of goroutines, each with variables of its own, build and change permissions, bind rules, permission-bind rules, target rules, instructions and lists of these. They may have objects in common if none of them changes these. Then, whatever the order in which their statements are executed, the program panics exactly when one of them would alone, and at the end every variable shows what it shows when its goroutine runs alone.", "quantifier": "every number of goroutines, every program of each, every interleaving of the statements, every way objects are shared at the start, and every behaviour of the parser", "why_tests_cant": "schedules and programs are unbounded", "anchors": ["ins.go:Instructions.Push", "ins.go:Instruction.Set", "pb.go:PermissionBindRules.Push", "pb.go:PBR", "bind.go:BindRules.Push", "target.go:TargetRules.Push", "rights.go:Permission.Shift"]}
{"id": "C139", "title": "AFOs(x...) equals pushing x... on an empty list of operations", "statement": "For all arguments, AFOs(x...) holds the operations that AFOs().Push(x...) holds. In any case no member is empty and no two members have the same text.", "quantifier": "every list of arguments, and both things the stack library may do after a refused item", "why_tests_cant": "argument lists are unbounded", "anchors": ["filter.go:AFOs", "filter.go:AttributeFilterOperations.Push", "filter.go:AttributeFilterOperations.pushPolicy"]}
{"id": "C140", "title": "Goroutines that change no value they have in common see, under every schedule, the values and rules they would see alone", "statement": "Any number of goroutines, each with variables of its own, make, copy and change values of one of the types around a pointer (distinguished names, permissions, inheritances, strength factors, addresses, host names, times of day, search filters, URIs, instructions) and make rules from them. They may have values in common if none of them changes these. Then, whatever the order in which their statements are executed, every variable shows at the end what it shows when its goroutine runs alone.", "quantifier": "every number of goroutines, every program of each, every interleaving of the statements, and every way objects are shared at the start", "why_tests_cant": "schedules and programs are unbounded", "anchors": ["net.go:IPAddr.Set", "net.go:FQDN.Set", "sec.go:SecurityStrengthFactor.Set", "time.go:TimeOfDay.Set", "dn.go:BindDistinguishedName.Set", "rights.go:Permission.Shift", "levels.go:Inheritance.Shift", "uri.go:LDAPURI.Set"]}
{"id": "C141", "title": "Goroutines that change no list and no rule they have in common see, under every schedule, the lists and rules they would see alone", "statement": "Any number of goroutines, each with variables of its own, push to and pop from lists of distinguished names, attribute types and object identifiers, make rules from these lists and call methods on the rules. They may have lists and rules in common if none of them changes these; SetQuoteStyle on a rule counts as a change of the list in it. Then, whatever the order in which their statements are executed, every list and rule shows at the end what it shows when its goroutine runs alone.", "quantifier": "every number of goroutines, every program of each, every interleaving of the statements, and every way objects are shared at the start", "why_tests_cant": "schedules and programs are unbounded", "anchors": ["dn.go:BindDistinguishedNames.Push", "attr.go:AttributeTypes.Push", "oid.go:ObjectIdentifiers.Push", "bind.go:BindRule.SetQuoteStyle", "target.go:TargetRule.SetQuoteStyle"]}
{"id": "C142", "title": "Goroutines that change no filter and no operation they have in common see, under every schedule, what they would see alone", "statement": "Any number of goroutines, each with variables of its own, make and change search filters, attribute filters, operations on these and lists of operations, push the one to the other and make rules from them. They may have such objects in common if none of them changes these. Then, whatever the order in which their statements are executed, every variable shows at the end what it shows when its goroutine runs alone.", "quantifier": "every number of goroutines, every program of each, every interleaving of the statements, and every way objects are shared at the start", "why_tests_cant": "schedules and programs are unbounded", "anchors": ["filter.go:SearchFilter.Set", "filter.go:AttributeFilter.Set", "filter.go:AttributeFilterOperation.Push", "filter.go:AttributeFilterOperation.Pop", "filter.go:AttributeFilterOperations.Push", "filter.go:AttributeFilterOperations.Pop", "filter.go:AttributeFilterOperations.SetDelimiter"]}
{"id": "C143", "title": "Kind is the name of the keyword, and stays what the constructor made it", "statement": "Kind of an object identifier, of a list of identifiers or attribute types, of an LDAP URI, of an address list, of an attribute filter operation and of a list of these is the documented name of the keyword that Keyword returns. Kind of a list of identifiers is extop or targetcontrol, as its constructor says, after every history of Push and Pop.", "quantifier": "every value of these types and every history of Push and Pop on the lists", "why_tests_cant": "histories and values are unbounded", "anchors": ["oid.go:ObjectIdentifiers.Kind", "oid.go:ObjectIdentifier.Kind", "oid.go:objectIdentifiersPushPolicy", "attr.go:AttributeTypes.Kind", "uri.go:LDAPURI.Kind", "net.go:IPAddr.Kind", "filter.go:AttributeFilterOperation.Kind", "dn.go:BindDistinguishedName.Kind"]}
{"id": "C144", "title": "Goroutines can print one attribute filter operation at the same time", "statement": "When several goroutines call String on one attribute filter operation, however their statements interleave, each call returns, and returns the text of the operation.", "quantifier": "every operation, every number of goroutines and of calls, every interleaving of their statements", "why_tests_cant": "the number of schedules grows without bound and a test cannot choose the schedule", "anchors": ["filter.go:AttributeFilterOperation.String", "filter.go:AttributeFilterOperation.presentationPolicy", "filter.go:AFO"]}
{"id": "C145", "title": "Blanks and quotation marks around a value are no part of it", "statement": "A time of day, security strength factor, authentication method or scope is read from a raw text exactly if the text is the value with an optional quotation mark on each side, white space around it and any number of blanks between its words; the quotation marks need not match.", "quantifier": "every ASCII text", "why_tests_cant": "all texts, all placements of blanks and marks", "anchors": ["parse.go:assertBindTimeOfDay", "parse.go:assertBindSecurityStrengthFactor", "parse.go:assertBindAuthenticationMethod", "parse.go:assertTargetScope", "misc.go:unquote", "misc.go:condenseWHSP"]}
{"id": "C146", "title": "Goroutines that push on one list cannot make two equal members", "statement": "When several goroutines push values on one list at the same time, the list has no two members that are the same, as it has none when one goroutine pushes them.", "quantifier": "every number of goroutines, every list of values each pushes, every schedule", "why_tests_cant": "all interleavings of the calls", "anchors": ["dn.go:BindDistinguishedNames.contains", "dn.go:uDNPushPolicy", "dn.go:BindDistinguishedNames.Push", "filter.go:AttributeFilterOperation.contains", "filter.go:AttributeFilterOperations.contains", "pb.go:PermissionBindRules.contains", "ins.go:Instructions.contains"]}
{"id": "C147", "title": "The label of an instruction cannot be changed once set, whichever goroutines call Set", "statement": "Once the label of an instruction is set, no call of Set changes it, also when several goroutines call Set on the same variable at the same time.", "quantifier": "every instruction variable (zero or made by ACI), every number of goroutines, every list of calls each makes, every schedule", "why_tests_cant": "all interleavings of the statements of the calls", "anchors": ["ins.go:Instruction.Set", "ins.go:instruction.set", "ins.go:instruction.setLabel", "ins.go:newACI", "ins.go:Instruction.ACL"]}
{"id": "C148", "title": "Goroutines that change one permission change no right that nobody names", "statement": "When several goroutines call Shift and Unshift on one permission (day list, inheritance) at the same time, then at every moment a right (day, level) that was not there and that no call gives is not there, one that was there and that no call takes is there, the disposition is unchanged, and the text that String returns meanwhile agrees. From any point on, the goroutines can be run on until every call has returned.", "quantifier": "every start, every number of goroutines, every list of Shift and Unshift calls with arguments in the range of the bit library, every schedule of the reads and writes, every moments of the reads of String", "why_tests_cant": "all interleavings", "anchors": ["rights.go:Permission.Shift", "rights.go:Permission.Unshift", "rights.go:permission.shift", "rights.go:permission.unshift", "rights.go:Permission.Positive", "rights.go:Permission.String", "time.go:DayOfWeek.Shift", "time.go:DayOfWeek.Unshift", "levels.go:Inheritance.Shift", "levels.go:Inheritance.Unshift"]}
{"id": "C149", "title": "No change of a permission is lost, whichever goroutines make it", "statement": "When several goroutines call Shift and Unshift on one permission at the same time and all calls have returned, a right that some call gives and none takes is there, and one that some call takes and none gives is not.", "quantifier": "every start, every number of goroutines, every list of Shift and Unshift calls, every schedule of the reads and writes", "why_tests_cant": "all interleavings", "anchors": ["rights.go:Permission.Shift", "rights.go:Permission.Unshift", "rights.go:permission.shift", "rights.go:permission.unshift", "rights.go:Permission.Positive"]}
{"id": "C150", "title": "The text of a permission is that of a set of rights it held at some moment of the call", "statement": "String of a permission, called while other goroutines call Shift and Unshift on it, returns the text of the rights that the permission held at some moment.", "quantifier": "every start, every number of goroutines, every list of calls with the ten rights, every schedule, every moments of the reads of String, in order", "why_tests_cant": "all interleavings with the reads of String", "anchors": ["rights.go:Permission.String", "rights.go:Permission.Shift", "rights.go:Permission.Unshift", "rights.go:right.String"]}
{"id": "C151", "title": "An IP address list can be read while one goroutine adds to it", "statement": "When one goroutine calls Set on an IPAddr and any number of goroutines call String on it at the same time, no call panics, each String returns the text of the addresses that the list holds at the moment it returns, the list only gets longer, and when all calls have returned it is what the calls of Set, one after the other, make of it. From any point on, the goroutines can be run on until every call has returned.", "quantifier": "every start, every room in the array, every growth of arrays, every list of calls, every number of readers, every schedule of the reads and writes", "why_tests_cant": "all interleavings of the reads and writes of the slice and its arrays", "anchors": ["net.go:IPAddr.Set", "net.go:ipAddrs.set", "net.go:ipAddrs.unique", "net.go:IPAddr.String"]}
{"id": "C152", "title": "Goroutines can add addresses to one IPAddr at the same time", "statement": "When several goroutines call Set and String on one IPAddr at the same time, no address is there twice, none is lost, no call panics, and each String returns the text of the list at some moment.", "quantifier": "every start, every room in the array, every growth of arrays, every list of calls, every number of goroutines, every schedule of the reads and writes", "why_tests_cant": "all interleavings of the reads and writes of the slice and its arrays", "anchors": ["net.go:IPAddr.Set", "net.go:ipAddrs.set", "net.go:ipAddrs.unique", "net.go:IPAddr.String"]}
{"id": "C153", "title": "A host name can be read while one goroutine extends it", "statement": "When one goroutine calls Set on an FQDN and any number of goroutines call String on it at the same time, no call panics, each String returns either the marker of an invalid name or the dotted labels that the name holds at the moment it returns (these, if the name is valid when String is called and when it returns), the name only gets longer, and when all calls have returned it is what the calls of Set, one after the other, make of it. From any point on, the goroutines can be run on until every call has returned.", "quantifier": "every start, every room in the array, every growth of arrays, every list of calls, every number of readers, every schedule of the reads and writes", "why_tests_cant": "all interleavings of the reads and writes of the slice and its arrays", "anchors": ["net.go:FQDN.Set", "net.go:labels.set", "net.go:processLabel", "net.go:FQDN.String", "net.go:FQDN.Valid", "net.go:FQDN.len"]}
{"id": "C154", "title": "Goroutines can extend one FQDN at the same time, and a call of Set is seen as a whole", "statement": "When several goroutines call Set and String on one FQDN at the same time, the labels of one call stay together, none is lost, no call panics, and each String returns a text the name has after some number of whole calls.", "quantifier": "every start, every room in the array, every growth of arrays, every list of calls, every number of goroutines, every schedule of the reads and writes", "why_tests_cant": "all interleavings of the reads and writes of the slice and its arrays", "anchors": ["net.go:FQDN.Set", "net.go:labels.set", "net.go:processLabel", "net.go:FQDN.String", "net.go:FQDN.Valid", "net.go:FQDN.len"]}
{"id": "C155", "title": "Goroutines that call Set on a variable that is set all work on the same value", "statement": "Take a variable of a type with Set or Shift (addresses, names, filters, attribute filters, attribute pairs, permission/bind pairs, days, strengths, URIs) and a moment at which it is set and no call is running. Whatever calls goroutines make on it from then on, none goes to a value that the variable no longer holds: at every later moment the variable shows what some order of calls, makes of the value, of each goroutine its first calls; when all have returned, all calls. (This is about which value a call works on: it is taken that two calls do not put their arguments into one value at the same time, for which see C148 to C154.) From any point on, the goroutines can be run on until every call has returned.", "quantifier": "every type of this kind, every start, every moment at which no call runs, every list of calls that never makes the value zero again, every number of goroutines, every schedule, of tests, new pointers, reads of the pointer and insertions of the arguments of a whole call", "why_tests_cant": "all interleavings of the test for nil, the storing of a new pointer and the reading of the pointer", "anchors": ["net.go:IPAddr.Set", "net.go:FQDN.Set", "filter.go:SearchFilter.Set", "filter.go:AttributeFilter.Set", "attr.go:AttributeBindTypeOrValue.Set", "pb.go:PermissionBindRule.Set", "time.go:DayOfWeek.Shift", "time.go:TimeOfDay.Set", "sec.go:SecurityStrengthFactor.Set", "uri.go:LDAPURI.Set"]}
{"id": "C156", "title": "The first call of Set on a variable may be made by several goroutines", "statement": "When several goroutines call Set on a variable that is nil, no call that has returned is lost: the variable shows what some order of all calls makes of it.", "quantifier": "every type of this kind, every list of calls, every number of goroutines, every schedule", "why_tests_cant": "all interleavings of the test for nil, the storing of a new pointer and the reading of the pointer", "anchors": ["net.go:IPAddr.Set", "net.go:FQDN.Set", "filter.go:SearchFilter.Set", "filter.go:AttributeFilter.Set", "attr.go:AttributeBindTypeOrValue.Set", "pb.go:PermissionBindRule.Set", "time.go:DayOfWeek.Shift", "time.go:TimeOfDay.Set", "sec.go:SecurityStrengthFactor.Set", "uri.go:LDAPURI.Set"]}
{"id": "C157", "title": "Goroutines can set and print one attribute pair at the same time", "statement": "Goroutines that call Set and String on one user or group attribute pair: a part, once set, is never unset and always one that was there at the start or that some argument stands for; each String returns the text of the name of one moment with the value of that or a later moment, and does not panic unless an empty value is given. Once the name is set and no call runs, the name is fixed whatever calls follow, and each later String returns the text of the pair at the moment it returns. From any point on, the goroutines can be run on until every call has returned.", "quantifier": "every pair, every list of calls with every kind of argument, every number of goroutines, every schedule", "why_tests_cant": "all interleavings of the reads and writes of the two parts", "anchors": ["attr.go:AttributeBindTypeOrValue.Set", "attr.go:AttributeBindTypeOrValue.String", "attr.go:ABTV"]}
{"id": "C158", "title": "The name of an attribute pair cannot be changed once set, whichever goroutines call Set", "statement": "When goroutines call Set on one attribute pair, the name that is shown at one moment is shown ever after, and the pair is in the end what some order of the arguments makes of it.", "quantifier": "every pair, every list of calls, every number of goroutines, every schedule", "why_tests_cant": "all interleavings of the reads and writes of the two parts", "anchors": ["attr.go:AttributeBindTypeOrValue.Set", "attr.go:AttributeBindTypeOrValue.String", "attr.go:ABTV"]}
{"id": "C159", "title": "Goroutines can change and print one attribute filter at the same time", "statement": "Goroutines that call Set and String on one attribute filter that is not empty: at every moment it is what some order of arguments makes of it, of each goroutine its first ones, when all calls have returned all; each String returns the attribute type of one moment with the search filter of that or a later moment, or the empty text, the latter only if a part was missing at some moment; if no call changes the attribute type, both are of one moment. From any point on, the goroutines can be run on until every call has returned.", "quantifier": "every filter, every list of calls with every kind of argument, every number of goroutines, every schedule", "why_tests_cant": "all interleavings of the reads and writes of the two parts", "anchors": ["filter.go:AttributeFilter.Set", "filter.go:AttributeFilter.String", "filter.go:AttributeFilter.Valid", "filter.go:AF"]}
{"id": "C160", "title": "An attribute filter is printed as it was at one moment", "statement": "When goroutines call Set and String on one attribute filter, each String returns the text that the filter had at some one moment.", "quantifier": "every filter, every list of calls, every number of goroutines, every schedule", "why_tests_cant": "all interleavings of the reads and writes of the two parts", "anchors": ["filter.go:AttributeFilter.Set", "filter.go:AttributeFilter.String", "filter.go:AttributeFilter.Valid", "filter.go:AF"]}
{"id": "C161", "title": "Goroutines can set and print one permission-bind rule at the same time", "statement": "Goroutines that call Set and String on one valid permission-bind rule: it stays valid, its permission and its bind rule are at every moment each the one of the start or one that was given; each String returns the text of the permission of one moment during the call with the bind rule of that or a later moment during the call, never the marker of an invalid rule. If one goroutine alone gives permissions (or bind rules), then in the end the rule has the permission (the bind rule) that its calls alone would leave. From any point on, the goroutines can be run on until every call has returned.", "quantifier": "every valid rule, every list of calls with every kind of argument, every number of goroutines, every schedule", "why_tests_cant": "all interleavings of the reads and writes of the permission and the bind rule", "anchors": ["pb.go:PermissionBindRule.Set", "pb.go:PermissionBindRule.String", "pb.go:PermissionBindRule.Valid", "pb.go:PBR"]}
{"id": "C162", "title": "A permission-bind rule that is only ever set as a whole is seen as a whole", "statement": "When every call of Set on one permission-bind rule gives one text of a whole rule, each String returns the text of the rule at the start or of one of the rules given, and so is the rule left in the end.", "quantifier": "every valid rule, every list of calls, every number of goroutines, every schedule", "why_tests_cant": "all interleavings of the reads and writes of the permission and the bind rule", "anchors": ["pb.go:PermissionBindRule.Set", "pb.go:PermissionBindRule.String", "pb.go:PermissionBindRule.Valid", "pb.go:PBR"]}
{"id": "C163", "title": "Goroutines can set and print one LDAP URI at the same time", "statement": "Goroutines that call Set and String on one LDAP URI: every part of it (name, scope, keyword and pair of the attribute bind type, each attribute, filter) is at every moment one of the start or one that was given; each String returns the text of the parts of six moments during the call, one after the other, with the members the list of attributes has at a seventh, and so begins with a name of the start or given. If one goroutine alone calls Set, the URI in the end is what its calls leave and its own calls of String return what they would. From any point on, the goroutines can be run on until every call has returned.", "quantifier": "every URI, every list of calls with every kind of argument, every number of goroutines, every schedule", "why_tests_cant": "all interleavings of the reads and writes of the parts of the URI", "anchors": ["uri.go:LDAPURI.Set", "uri.go:LDAPURI.String", "uri.go:URI"]}
{"id": "C164", "title": "An LDAP URI that is only ever set as a whole is seen as a whole", "statement": "When every call of Set on one LDAP URI gives one text of a whole URI, each String returns the text of the URI at the start or of one of the URIs given, and so is the URI left in the end.", "quantifier": "every URI, every list of calls, every number of goroutines, every schedule", "why_tests_cant": "all interleavings of the reads and writes of the parts of the URI", "anchors": ["uri.go:LDAPURI.Set", "uri.go:LDAPURI.String", "uri.go:URI"]}
{"id": "C165", "title": "Goroutines can set and print one TimeOfDay variable at the same time", "statement": "Goroutines that call Set and String on one TimeOfDay variable: its time is at every moment the one of the start or one that was given, never a mixture of the bytes of two; String returns the text of the time that the variable had when the call began; a time returned by Set is such a time and does not change any more, whatever is set later. If one goroutine alone calls Set, each of its calls returns what it would if it were alone, and the variable ends with the time its calls leave. From any point on, the goroutines can be run on until every call has returned.", "quantifier": "every time at the start, every list of calls with every kind of argument, every number of goroutines, every schedule", "why_tests_cant": "all interleavings of the reads and writes of the variable and of the two bytes of each time", "anchors": ["time.go:TimeOfDay.Set", "time.go:TimeOfDay.String", "time.go:newTimeOfDay"]}
{"id": "C166", "title": "Set on a TimeOfDay returns the time it set", "statement": "Every call of Set on a TimeOfDay variable returns the time it was given, also when other goroutines call Set on the variable.", "quantifier": "every time at the start, every list of calls, every number of goroutines, every schedule", "why_tests_cant": "all interleavings of the reads and writes of the variable and of the two bytes of each time", "anchors": ["time.go:TimeOfDay.Set", "time.go:TimeOfDay.String", "time.go:newTimeOfDay"]}
{"id": "C167", "title": "Goroutines can set and print one security strength factor that was set before", "statement": "Goroutines that call Set and String on one SecurityStrengthFactor variable that was set before: its value is at every moment the one of the start or one that was given; a text that String returns is that of a value the variable has during the call; what Set returns shows every later value. If no call takes the factor away, no call panics, whether or not the variable was set before. If one goroutine alone calls Set, it does not panic, its own calls of String return what they would if it were alone, and the variable ends with the value its calls leave. From any point on, the goroutines can be run on until every call has returned or panicked.", "quantifier": "every value at the start, every list of calls with every kind of argument, every number of goroutines, every schedule", "why_tests_cant": "all interleavings of the reads and writes of the variable and of the pointer behind it", "anchors": ["sec.go:SecurityStrengthFactor.Set", "sec.go:ssf.set", "sec.go:SecurityStrengthFactor.String", "sec.go:SecurityStrengthFactor.IsZero"]}
{"id": "C168", "title": "String of a security strength factor returns, with the text of a value that was given", "statement": "String of a SecurityStrengthFactor never panics and returns the text of the value of the start or of one given by a call of Set, whichever goroutines call Set meanwhile, also for the first time.", "quantifier": "every value at the start, every list of calls, every number of goroutines, every schedule", "why_tests_cant": "all interleavings of the reads and writes of the variable and of the pointer behind it", "anchors": ["sec.go:SecurityStrengthFactor.Set", "sec.go:ssf.set", "sec.go:SecurityStrengthFactor.String", "sec.go:SecurityStrengthFactor.IsZero"]}
{"id": "C169", "title": "Goroutines can set, print and compare one distinguished name", "statement": "Goroutines that call Set, String and Eq on one distinguished name variable: no call panics and, run on from any point, every call returns. If the name was set before, its keyword and its text are at every moment those of the start or ones that a call gave; String returns the text of the name of a moment of the call; a rule made by Eq and printed has the keyword of one moment and the text of that or a later one, and is never refused; what Set returns shows every later name. If one goroutine alone calls Set, its own calls return what they would if it were alone and the variable ends with the name its calls leave. A variable that was never set and that nobody sets stays unset.", "quantifier": "every name at the start, every list of calls, every number of goroutines, every schedule", "why_tests_cant": "all interleavings of the reads and writes of the variable, of the keyword and of the text behind it", "anchors": ["dn.go:BindDistinguishedName.Set", "dn.go:TargetDistinguishedName.Set", "dn.go:distinguishedName.set", "dn.go:BindDistinguishedName.String", "dn.go:TargetDistinguishedName.String", "dn.go:BindDistinguishedName.Eq", "dn.go:TargetDistinguishedName.Eq"]}
{"id": "C170", "title": "A distinguished name set by goroutines is one that was given", "statement": "A distinguished name variable that goroutines set and print has, when all calls have returned, the keyword and the text of one call of Set or of the start; the same holds of a rule that Eq makes meanwhile; a name that was given is not lost to a call of Set without a text.", "quantifier": "every name at the start, every list of calls, every number of goroutines, every schedule", "why_tests_cant": "all interleavings of the reads and writes of the variable, of the keyword and of the text behind it", "anchors": ["dn.go:BindDistinguishedName.Set", "dn.go:TargetDistinguishedName.Set", "dn.go:distinguishedName.set", "dn.go:BindDistinguishedName.String", "dn.go:TargetDistinguishedName.String", "dn.go:BindDistinguishedName.Eq", "dn.go:TargetDistinguishedName.Eq"]}
{"id": "C171", "title": "A search filter that goroutines set and print consists of texts that were given", "statement": "Goroutines that call Set and String on one SearchFilter that was made by Filter: a text that String returns has bytes of one text and the length of one, each that of the start or one that was given, and so has the variable at every moment; if all texts have the same length, String returns only the text of the start or one that was given. If one goroutine alone calls Set, its own calls of String return what they would if it were alone; once it has returned, the filter has the text its calls leave and calls of String that begin then return it. From any point on, the goroutines can be run on until every call has returned.", "quantifier": "every text at the start, every list of calls, every number of goroutines, every schedule, either order of the two words in writing and in reading, all bytes behind a text in memory", "why_tests_cant": "all interleavings of the reads and writes of the two words of a string, for each order of the two", "anchors": ["filter.go:SearchFilter.Set", "filter.go:searchFilter.set", "filter.go:SearchFilter.String", "filter.go:Filter"]}
{"id": "C172", "title": "A search filter is printed whole", "statement": "String of a SearchFilter returns the text of the start or one given by a call of Set, whichever goroutines call Set meanwhile, and when all calls have returned the filter has such a text.", "quantifier": "every text at the start, every list of calls, every number of goroutines, every schedule, either order of the two words in writing and in reading", "why_tests_cant": "all interleavings of the reads and writes of the two words of a string, for each order of the two", "anchors": ["filter.go:SearchFilter.Set", "filter.go:searchFilter.set", "filter.go:SearchFilter.String", "filter.go:Filter"]}
{"id": "C173", "title": "Goroutines can set and print one instruction at the same time", "statement": "Goroutines that call Set and String on one Instruction: rules are only added and a label is never taken away; label and rules are those of the start or were given. String prints the label of the moment it begins, the target rules of a later moment of the call and the permission-bind rules of a still later one; it prints every rule that was there before it began, in order, and only rules that are there when it returns. If one goroutine alone calls Set, its own calls of String print what they would if it were alone, and the instruction is in the end what its calls leave. From any point on, the goroutines can be run on until every call has returned.", "quantifier": "every instruction at the start, every list of calls with every list of arguments, every push policy, every number of goroutines, every schedule", "why_tests_cant": "all interleavings of the tests, writes and pushes of Set with the three reads of String", "anchors": ["ins.go:Instruction.Set", "ins.go:instruction.set", "ins.go:instruction.assertInstruction", "ins.go:instruction.setLabel", "ins.go:Instruction.String"]}
{"id": "C174", "title": "An instruction is printed as it is at one moment", "statement": "A text that String of an Instruction returns is that of the instruction at one moment of the call, whichever goroutines call Set meanwhile; in particular a target rule and a permission that one call of Set gives are printed together or not at all, or the target rule first.", "quantifier": "every instruction at the start, every list of arguments, every push policy, every schedule", "why_tests_cant": "all interleavings of the tests, writes and pushes of Set with the three reads of String", "anchors": ["ins.go:Instruction.Set", "ins.go:instruction.set", "ins.go:instruction.assertInstruction", "ins.go:instruction.setLabel", "ins.go:Instruction.String"]}
{"id": "C175", "title": "Goroutines can change and print one day list or inheritance at the same time", "statement": "Whatever goroutines call Shift and Unshift on a DayOfWeek (an Inheritance) meanwhile, String returns the names of days (levels between the brackets), in order: one that was not there and that no call gives is not printed, one that was there and that no call takes is printed (a list without levels is printed as level 0). If nothing changes during the call, the text is that of the list; if one day (level) only changes, it is that of the moment this one is looked at. Eq and Ne make a rule of a DayOfWeek in which a day stays, and none of one in which there never is a day. The text of a DayOfWeek is the mark of an invalid one or can be parsed, to the days it shows; that of an Inheritance has no level between the brackets or can be parsed, to the levels it shows.", "quantifier": "every list made by any calls, every list of calls with every covered argument, every number of goroutines, every schedule, every moments of the reads", "why_tests_cant": "all interleavings of the reads and writes of Shift and Unshift with the reads of String, one for each bit", "anchors": ["time.go:DayOfWeek.String", "time.go:DayOfWeek.Shift", "time.go:DayOfWeek.Unshift", "levels.go:Inheritance.String", "levels.go:levels.string", "levels.go:Inheritance.Shift", "levels.go:Inheritance.Unshift"]}
{"id": "C176", "title": "The text of a day list or inheritance is that of one moment", "statement": "The text that String of a DayOfWeek or an Inheritance returns is that of the list at one moment, whichever goroutines call Shift and Unshift meanwhile.", "quantifier": "every list made by any calls, every list of calls, every schedule, every moments of the reads in order", "why_tests_cant": "all interleavings of the reads and writes of Shift and Unshift with the reads of String, one for each bit", "anchors": ["time.go:DayOfWeek.String", "time.go:DayOfWeek.Shift", "time.go:DayOfWeek.Unshift", "levels.go:Inheritance.String", "levels.go:levels.string", "levels.go:Inheritance.Shift", "levels.go:Inheritance.Unshift"]}
{"id": "C177", "title": "Goroutines can call Parse on one variable and read it at the same time", "statement": "Goroutines that call Parse on one variable and methods that read it: at every moment the variable holds what it held at the start or what one accepted text says, and that is what a method that reads sees; each Parse accepts or refuses its text as it does alone; when all calls have returned, the variable holds what the last accepted text of one of the goroutines says, or what it held if no text was accepted; no call waits for another goroutine.", "quantifier": "every text, every value at the start, every list of calls, every number of goroutines, every schedule; the twelve types whose variable is one word and that have Parse", "why_tests_cant": "all interleavings of the stores of Parse with the copies that methods make", "anchors": ["parse.go:BindRule.Parse", "parse.go:BindRules.Parse", "parse.go:Permission.Parse", "parse.go:TargetRule.Parse", "parse.go:TargetRules.Parse", "parse.go:PermissionBindRule.Parse", "parse.go:PermissionBindRules.Parse", "parse.go:Instruction.Parse", "parse.go:LDAPURI.Parse", "parse.go:AttributeFilterOperations.Parse", "parse.go:AttributeFilterOperation.Parse", "parse.go:AttributeFilter.Parse"]}
{"id": "C178", "title": "An attribute pair is read whole while goroutines parse into it", "statement": "A copy of an AttributeBindTypeOrValue that a method makes while goroutines call Parse on the variable is the value of the start or one that an accepted text says; when all calls have returned the variable is such a value.", "quantifier": "every text, every keyword, every value at the start, every list of calls, every schedule, either order of the two words", "why_tests_cant": "all interleavings of the stores of Parse with the copies that methods make", "anchors": ["attr.go:AttributeBindTypeOrValue.Parse", "attr.go:parseATBTV", "attr.go:AttributeBindTypeOrValue.String", "attr.go:AttributeBindTypeOrValue.Keyword"]}
{"id": "C179", "title": "Set and Parse of a URI or attribute filter that is set act in some order", "statement": "When goroutines call Set and Parse on one LDAPURI or AttributeFilter that is set (with no argument that empties a filter), the variable shows at every moment what the calls done so far make in some order that keeps the order of each goroutine, and when all calls have returned what all calls make in such an order. A call that has returned comes in the order before one that begins later.", "quantifier": "every URI, every list of calls with every argument and text, every number of goroutines, every schedule; any type that has Set and Parse and whose values never count as zero", "why_tests_cant": "all interleavings of the steps of Set (test, read of the pointer, change of what it points at) with the store of Parse", "anchors": ["uri.go:LDAPURI.Set", "uri.go:ldapURI.set", "parse.go:LDAPURI.Parse", "parse.go:parseLDAPURI", "filter.go:AttributeFilter.Set", "parse.go:AttributeFilter.Parse"]}
{"id": "C180", "title": "Set and Parse of a variable that holds nothing act in some order", "statement": "When goroutines call Set and Parse on one variable that holds a nil pointer, the variable shows, when all calls have returned, what the calls make in some order.", "quantifier": "every list of calls, every schedule", "why_tests_cant": "all interleavings of the steps of Set (test, read of the pointer, change of what it points at) with the store of Parse", "anchors": ["uri.go:LDAPURI.Set", "uri.go:ldapURI.set", "parse.go:LDAPURI.Parse", "parse.go:parseLDAPURI", "filter.go:AttributeFilter.Set", "parse.go:AttributeFilter.Parse"]}
