{"id": "C01", "title": "Tokenising is lossless, total and longest-match", "statement": "For every unit string the token list shown by `debug-parser` is finite, every token is non-empty, each token is the longest piece of the remaining text that any rule of the active mode matches (ties going to the rule listed first), and the token texts concatenated are exactly the stripped input. No input makes the tokeniser fail.", "quantifier": "every string of Unicode code points", "why_tests_cant": "the string space is infinite and modes make the tokeniser history dependent", "anchors": ["pyudunits2/_grammar/udunits2Lexer.g4.jinja", "pyudunits2/_grammar/parser/udunits2Lexer.py", "pyudunits2/_grammar/__init__.py:_debug_tokens"]}
{"id": "C02", "title": "parse always returns a graph or raises a documented input error", "statement": "For every string, parse() terminates and returns an expression graph or raises SyntaxError; the only other outcomes are ValueError for an integer literal of more than 4300 digits and decimal.InvalidOperation for a decimal exponent outside the range of decimal.Decimal. With a stack that is too small for the text also RecursionError (C84, C85). Never KeyError, AssertionError or TypeError from the tree visitor.", "quantifier": "every string", "why_tests_cant": "a crash hides in some token sequence nobody wrote down", "anchors": ["pyudunits2/_grammar/__init__.py:parse,UnitParseVisitor", "pyudunits2/_grammar/udunits2Parser.g4"]}
{"id": "C03", "title": "The parser accepts exactly the published grammar", "statement": "A token sequence is accepted iff it is derivable from `unit_spec` of udunits2Parser.g4, and the tree used to build the result is one of its derivations.", "quantifier": "every token sequence", "why_tests_cant": "the language is infinite and the grammar ambiguous", "anchors": ["pyudunits2/_grammar/udunits2Parser.g4", "pyudunits2/_grammar/parser/udunits2Parser.py"]}
{"id": "C04", "title": "Every accepted string has one reading, with fixed precedence", "statement": "Products and quotients associate to the left, an exponent binds tighter than juxtaposition (`m2` is m^2, `m 2` is m*2), `m2^3` is m*(2^3); with that rule the grammar gives each token sequence at most one tree.", "quantifier": "every accepted token sequence", "why_tests_cant": "ambiguity may be hidden in any longer sequence", "anchors": ["pyudunits2/_grammar/udunits2Parser.g4:power,product"]}
{"id": "C05", "title": "Surrounding white space never matters", "statement": "Adding white space before or after a text changes neither what parse nor what normalize does; white space are the 29 characters that str.isspace() accepts, and parse reads exactly the text that remains when all of them are removed from both ends.", "quantifier": "every string s and every white-space padding", "why_tests_cant": "infinitely many strings", "anchors": ["pyudunits2/_grammar/__init__.py:parse"]}
{"id": "C06", "title": "Operator spellings are interchangeable", "statement": "Once tokenised, the spelling of an operator token does not influence the result: `*`/`·`/`.`/`-` for product, `/`/` per `/` PER ` for quotient, `^`/`**` for power, `@`/since/from/after/ref for shift.", "quantifier": "every token sequence and every respelling of its operator tokens", "why_tests_cant": "combinatorial", "anchors": ["pyudunits2/_grammar/udunits2Lexer.g4.jinja:MULTIPLY,DIVIDE,RAISE,SHIFT_OP", "pyudunits2/_grammar/__init__.py:UnitParseVisitor.TERM_HANDLERS"]}
{"id": "C07", "title": "Normalised text, parsed again", "statement": "For every text of at most 4300 characters that parses, whose superscripts are integers, whose dates re-tokenise as dates, and that uses no time-zone word (UTC, Z, GMT, TZ, T) as a unit to the right of a shift: parsing its normalised text gives the expression read strictly from left to right without brackets, each exponent going to the last factor; it is a SyntaxError exactly when two exponents follow each other. If no brackets were needed the result is the same expression (numbers written out), and normalize applied twice gives the same text or that SyntaxError (unless a number is a Decimal -0 or a superscript with plus sign or leading zeros).", "quantifier": "every text and every expression the parser can return (and every writable expression built by hand)", "why_tests_cant": "every expression shape and number", "anchors": ["pyudunits2/_grammar/__init__.py:normalize", "pyudunits2/_expr/graph.py:__str__"]}
{"id": "C08", "title": "Text to the right of a shift operator", "statement": "A text read somewhere behind a shift operator (`@`, `since`, ...) is split into the tokens it has on its own exactly when, read there, it contains no token of a date or time (zone words UTC Z GMT TZ T, the minus sign, dates, times) and, directly after a unit, nothing with a point (`.` or a decimal number). Hence for all texts A, B that parse, `(A)·(B)` parses to the product of what A and B parse to, provided A contains no shift operator or B is such an unaffected text; two unaffected factors can be swapped.", "quantifier": "every pair of texts, every text in front", "why_tests_cant": "depends on the tokeniser mode left behind by any prefix, for every later text", "anchors": ["pyudunits2/_grammar/udunits2Lexer.g4.jinja:SHIFT_OP,SHIFT_MODE"]}
{"id": "C09", "title": "Superscript exponents", "statement": "A text with superscript exponents that are integers (of at most 4300 digits) and the same text with `^` and ordinary digits instead are parsed alike: the same error, or the same expression except that the exponent is a str in the one and an int in the other. Whenever the dimensionality of a unit with superscript exponents (anywhere in its definitions) is defined, it equals that of the unit with the ints; a superscript power of a named unit has a dimensionality exactly when the unit is dimensionless (TypeError otherwise). Likewise conversion and comparison: whenever converting a value between two units with superscript exponents is defined, the result is that between the units with the ints; and two units with superscripts whose texts differ, whenever == gives an answer, compare as the units with the ints do.", "quantifier": "every text, every unit", "why_tests_cant": "every exponent, unit and surrounding expression", "anchors": ["pyudunits2/_grammar/__init__.py:handle_UNICODE_EXPONENT", "pyudunits2/_expr/dimensionality.py", "pyudunits2/_unit.py:Unit.__eq__,Converter.__init__"]}
{"id": "C10", "title": "Constructing a Unit never changes its definition", "statement": "Normalisation at construction is validation only: if it succeeds the normalised graph equals the definition, hence str(unit) is the str of the parsed text.", "quantifier": "every definition graph and reference mapping", "why_tests_cant": "every graph shape", "anchors": ["pyudunits2/_expr/normaliser.py", "pyudunits2/_unit.py:Unit.__init__"]}
{"id": "C11", "title": "Dates are recognised exactly", "statement": "UnitSystem.unit returns a DateUnit iff the text is a shift, at top level, of a unit whose dimensionality is exactly one time basis to the power 1; its reference_date text is the text written after the shift operator.", "quantifier": "every unit string in every unit system", "why_tests_cant": "all strings", "anchors": ["pyudunits2/_unit.py:_unit_from_expression_and_identifiers", "pyudunits2/_expr/normaliser.py:visit_Shift"]}
{"id": "C12", "title": "Nested dates and non-numeric shifts are always refused", "statement": "No Unit exists whose definition contains, anywhere, a shift of a time unit or a shift by a timestamp: construction raises ValueError.", "quantifier": "every definition graph", "why_tests_cant": "every nesting depth", "anchors": ["pyudunits2/_expr/normaliser.py:visit_Shift"]}
{"id": "C13", "title": "A DateUnit is convertible to nothing", "statement": "DateUnit.is_convertible_to is False for every unit in both directions.", "quantifier": "every date unit and every other unit", "why_tests_cant": "all pairs", "anchors": ["pyudunits2/_unit.py:DateUnit,Converter"]}
{"id": "C14", "title": "Dimensionality is a homomorphism", "statement": "dimensionality(a*b) is the pointwise sum, dimensionality(a/b) the difference, dimensionality(a^n) n times, a number contributes nothing; zero entries never appear.", "quantifier": "every expression and reference mapping", "why_tests_cant": "every expression", "anchors": ["pyudunits2/_unit.py:Unit.dimensionality", "pyudunits2/_expr/dimensionality.py"]}
{"id": "C15", "title": "Dimensionality agrees with the expanded definition", "statement": "The dimensionality reported for a unit equals the exponents of the (non dimensionless) basis units in its fully expanded definition, however deeply units are defined through other units.", "quantifier": "every unit without value transforms below the root", "why_tests_cant": "definition chains are unbounded", "anchors": ["pyudunits2/_unit.py:Unit.dimensionality,Unit._expanded_expr"]}
{"id": "C16", "title": "Prefixes and scale factors do not change dimensionality", "statement": "A unit multiplied or divided by a number has the dimensionality of the unit, and so has a prefix spelled p applied to a unit spelled k whenever p and k are different texts.", "quantifier": "every unit, prefix and number", "why_tests_cant": "all units", "anchors": ["pyudunits2/_unit_system.py:unit_by_name_or_symbol", "pyudunits2/_unit.py:Unit.dimensionality"]}
{"id": "C17", "title": "is_convertible_to is an equivalence relation", "statement": "Reflexive, symmetric and transitive on units whose dimensionality is defined.", "quantifier": "every triple of units", "why_tests_cant": "all triples", "anchors": ["pyudunits2/_unit.py:Unit.is_convertible_to"]}
{"id": "C18", "title": "Converter construction refuses exactly the non-convertible pairs", "statement": "For units other than date units obtained from UnitSystem.unit, Converter(a,b) raises IncompatibleUnitsError iff a.is_convertible_to(b) is False (and where the dimensionality of one of them is an error, both calls raise that error).", "quantifier": "every pair of units", "why_tests_cant": "all pairs", "anchors": ["pyudunits2/_unit.py:Converter.__init__,Unit.is_convertible_to"]}
{"id": "C19", "title": "unit(word) and the direct look-up of the word", "statement": "For every word, system and state, unit(word) and unit_by_name_or_symbol(word) fail with the same error or both succeed, with the same effect on the system. If the object looked up is not a basis unit, it can be used wherever unit(word) can: same dimensionality, is_time_unit, is_dimensionless, is_convertible_to (both sides) and Converter (both sides). If it is a basis unit and both sides are dimensionless, is_convertible_to and Converter to it work alike; otherwise it is not convertible to or from, is_convertible_to of it and any Converter from it raise AttributeError.", "quantifier": "every word, system state, stack and unit", "why_tests_cant": "every pair of units and history", "anchors": ["pyudunits2/_unit.py:BasisUnit.dimensionality", "pyudunits2/_unit_system.py:unit_by_name_or_symbol,unit"]}
{"id": "C20", "title": "Converting is physically right", "statement": "For units whose fully expanded definition is an optional shift of any number of logarithms of a product of integer powers of basis units and non-zero numbers: if all basis units occur with the same exponents, the converter exists and convert(v) is exactly the number whose quantity in the target unit is the quantity denoted by v in the source unit; if the exponents are opposite (and not all dimensionless) it is the number denoting the reciprocal quantity.", "quantifier": "every such pair of units and every real value in the domain", "why_tests_cant": "reals and all units", "anchors": ["pyudunits2/_unit.py:Converter", "pyudunits2/_expr/split.py", "pyudunits2/_expr/sympy.py"]}
{"id": "C21", "title": "Converting a unit to itself is the identity", "statement": "Converter(u,u).convert(v) = v.", "quantifier": "every unit and value", "why_tests_cant": "all", "anchors": ["pyudunits2/_unit.py:Converter"]}
{"id": "C22", "title": "Conversions round-trip", "statement": "Converter(b,a).convert(Converter(a,b).convert(v)) = v.", "quantifier": "every convertible pair and value in the domain", "why_tests_cant": "all", "anchors": ["pyudunits2/_unit.py:Converter"]}
{"id": "C23", "title": "Conversions compose", "statement": "Converter(b,c) after Converter(a,b) equals Converter(a,c) whenever all three are direct.", "quantifier": "every convertible triple and value", "why_tests_cant": "all", "anchors": ["pyudunits2/_unit.py:Converter"]}
{"id": "C24", "title": "Conversion between plain units is one multiplication", "statement": "Between units without shift or log, convert(v) = k*v with a non-zero rational k (or k/v for inverse dimensions) that depends on the units only.", "quantifier": "every pair of transform-free units", "why_tests_cant": "all", "anchors": ["pyudunits2/_unit.py:Converter"]}
{"id": "C25", "title": "Prefix conversion factor", "statement": "Converting from prefix+unit to unit multiplies by exactly the prefix value.", "quantifier": "every prefix, every linear unit, every value", "why_tests_cant": "all", "anchors": ["pyudunits2/_unit_system.py:unit_by_name_or_symbol", "pyudunits2/_unit_reference.py:Prefix"]}
{"id": "C26", "title": "A number times a unit", "statement": "For a unit u that is a pure factor, n of u: a value of n*u converts to n times it of u. For a unit carrying a shift or a logarithm the conversion from n*u is the one from u without its shift with the value divided by n, and the product of a shifted unit with another unit has the dimensionality of the shifted unit alone.", "quantifier": "every unit, number and value", "why_tests_cant": "every unit, number and real value", "anchors": ["pyudunits2/_expr/split.py:visit_Multiply"]}
{"id": "C27", "title": "Units of equal dimensionality convert iff their dimensionless basis units agree", "statement": "A Converter between units of equal dimensionality yields numbers iff every basis unit, dimensionless ones included, has the same exponent in both; otherwise convert raises NameError for every value.", "quantifier": "every pair of dimensionless units", "why_tests_cant": "all", "anchors": ["pyudunits2/_unit.py:BasisUnit,Converter"]}
{"id": "C28", "title": "Unit equality", "statement": "With exact arithmetic, u == v is reflexive and symmetric; and if the texts of u and v differ, u == v implies the same exponents of all basis units and that every number denotes the same quantity in u and v. Conversely, units whose expanded definitions have the same shift, the same logarithms, the same factor and the same exponents are equal, however they are written. For units with a basis unit in them, without offset and logarithm, and with no number written with a point or an exponent, the comparison made by the code (with sympy's numbers) is exactly that one.", "quantifier": "every pair of units", "why_tests_cant": "all pairs", "anchors": ["pyudunits2/_unit.py:Unit.__eq__", "pyudunits2/_expr/graph.py:__str__"]}
{"id": "C29", "title": "Look-ups are independent of history", "statement": "In a system where no word is claimed by two units (such as the shipped one): for any sequence of earlier unit()/unit_by_name_or_symbol() calls, successful or failing, a call returns exactly what it would return on the freshly loaded system, unless one of the two runs out of stack; with definitions at most n levels deep and a stack deeper than n they agree outright.", "quantifier": "every clash-free system, every history of calls, every stack depth and every query", "why_tests_cant": "unbounded histories with lazy resolution and caching", "anchors": ["pyudunits2/_unit_system.py:LazilyDefinedUnit.resolve,_unit_by_name,_unit_by_symbol"]}
{"id": "C30", "title": "Results are independent of set iteration order", "statement": "Identifiers of an expression are resolved in set (hash) order; the resulting unit, its dimensionality, expansion and conversions do not depend on that order.", "quantifier": "every iteration order", "why_tests_cant": "PYTHONHASHSEED sampling", "anchors": ["pyudunits2/_unit_system.py:unit", "pyudunits2/_expr/atoms.py"]}
{"id": "C31", "title": "add_unit is atomic and never steals a primary name", "statement": "add_unit either raises ValueError and leaves the system unchanged, or registers exactly the unit's names and symbols; without replace no existing primary name or symbol is ever rebound.", "quantifier": "every system and unit", "why_tests_cant": "all", "anchors": ["pyudunits2/_unit_system.py:add_unit"]}
{"id": "C32", "title": "Look-up priority", "statement": "A query equal to a registered name wins over a symbol, either wins over any prefixed reading, and a prefix name wins over a prefix symbol; among prefixes the first registered that works wins.", "quantifier": "every system and query", "why_tests_cant": "all", "anchors": ["pyudunits2/_unit_system.py:unit_by_name_or_symbol"]}
{"id": "C33", "title": "UnresolvableUnitException exactly when there is no reading", "statement": "unit_by_name_or_symbol raises UnresolvableUnitException iff the query is neither a registered key nor a registered prefix followed by a registered key; at most one prefix is ever applied.", "quantifier": "every system of resolvable units and query", "why_tests_cant": "all", "anchors": ["pyudunits2/_unit_system.py:unit_by_name_or_symbol"]}
{"id": "C34", "title": "Resolving never changes the vocabulary", "statement": "Looking up units never adds or removes a known name, symbol, alias or prefix; in a clash-free system each word and text keeps its meaning.", "quantifier": "every system built with the API and every history", "why_tests_cant": "all", "anchors": ["pyudunits2/_unit_system.py:_unit_by_name,add_unit"]}
{"id": "C35", "title": "Resolution terminates on acyclic definitions and is stable under more stack", "statement": "A result once obtained does not change with a deeper stack; if definitions are at most n levels deep, no look-up in any state needs more than n+1 levels of stack; a word whose definition leads back to itself is never given a unit.", "quantifier": "every system, history, stack depth and query", "why_tests_cant": "all", "anchors": ["pyudunits2/_unit_system.py:LazilyDefinedUnit.resolve"]}
{"id": "C36", "title": "The shipped database loads", "statement": "Reading udunits2_combined.xml raises nothing with either reader and yields a system with no clashing keys and acyclic definitions at most 7 deep; hence every call on it gives, after any history, what it gives on the fresh system, and never RecursionError with a stack at least 8 look-ups deep.", "quantifier": "the shipped file; every hash order; every later history; every query and unit string", "why_tests_cant": "unit tests look at a few names", "anchors": ["pyudunits2/_udunits2_xml_parser.py", "pyudunits2/udunits2_combined.xml"]}
{"id": "C37", "title": "Exactly which shipped words are usable", "statement": "Of the 859 names, plurals, symbols and aliases of the shipped database, unit(w) succeeds for exactly those outside an explicit list of 57 words and unit_by_name_or_symbol(w) for exactly those outside an explicit list of 22, whatever was looked up before, whatever the set orders, with a stack at least 8 look-ups deep.", "quantifier": "every key of the shipped database, every history, every set iteration order", "why_tests_cant": "tests sample a few", "anchors": ["pyudunits2/udunits2_combined.xml", "pyudunits2/_grammar/udunits2Lexer.g4.jinja:ID"]}
{"id": "C38", "title": "Plural rule", "statement": "A name without <plural>/<noplural> is registered also under singular+'es' when it ends in s, x, z, ch or sh and singular+'s' otherwise; with <noplural> only the singular; with <plural> exactly that.", "quantifier": "every name tag", "why_tests_cant": "all names", "anchors": ["pyudunits2/_udunits2_xml_parser.py:handle_name_tag"]}
{"id": "C39", "title": "Prefix symbols in the XML are a set", "statement": "The order and repetition of <symbol> tags in a <prefix>, and the hash order used to store them, change no look-up and no unit string's outcome, after any history, provided no symbol belongs to two prefixes and no prefix has two symbols of which one begins with the other.", "quantifier": "every document, iteration order, history, query", "why_tests_cant": "hash seed", "anchors": ["pyudunits2/_udunits2_xml_parser.py:handle_prefix", "pyudunits2/_unit_system.py:add_prefix"]}
{"id": "C40", "title": "Unknown XML content is ignored by the default reader and refused by the strict one", "statement": "Extra tags never change the system built by the default reader; the strict reader gives the same system, or raises ValueError exactly when some content was left unhandled.", "quantifier": "every XML tree", "why_tests_cant": "all trees", "anchors": ["pyudunits2/_udunits2_xml_parser.py:UDUNITS2XMLParser,UnhandledContentDisallowed"]}
{"id": "C41", "title": "CLI conversion-expr exit status", "statement": "The CLI's conversion-expr stops with the exception of the first text that is not a unit; otherwise, when both dimensionalities are defined, it prints the 'not possible' line and exits with status 1 exactly when they are neither equal nor opposite, and else prints the two lines with the expression (or stops with the exception raised while building it). `convert` is never available; no subcommand exits with 1 and an unknown one, or a wrong number of arguments, with 2, printing nothing on standard output.", "quantifier": "every pair of unit texts, however passed on the command line, and every other command line", "why_tests_cant": "all texts", "anchors": ["pyudunits2/__main__.py"]}
{"id": "C42", "title": "Legacy UnitSystem methods", "statement": "basis_of and conversion_expr answer for units of the system.", "quantifier": "every argument", "why_tests_cant": "all", "anchors": ["pyudunits2/_unit_system.py:basis_of,conversion_expr"]}
{"id": "C43", "title": "Expander preserves the value", "statement": "Expander().visit(g) has the same value as g whatever non-zero values the identifiers stand for, for every graph of products, quotients, integer powers, identifiers and non-zero numbers on which it succeeds (Decimal products up to 28 digits); it always succeeds when the numbers are ints; a shift of such graphs is expanded part by part.", "quantifier": "every graph", "why_tests_cant": "all graphs", "anchors": ["pyudunits2/_expr/expander.py:ChainedExpr.terms,Expander"]}
{"id": "C44", "title": "Expander collects like terms", "statement": "In the expanded form of every graph of products, quotients, integer powers, numbers and identifiers, every identifier occurs at most once, and the form is a product of terminals raised to ints other than 0 and 1, without quotients or nested powers.", "quantifier": "every graph", "why_tests_cant": "all graphs", "anchors": ["pyudunits2/_expr/expander.py:ChainedExpr.terms"]}
{"id": "C45", "title": "DateTime equality", "statement": "Two DateTimes are equal exactly when year, month, day, time and offset agree, whatever the raw text; equality is an equivalence relation.", "quantifier": "every pair of DateTimes", "why_tests_cant": "all", "anchors": ["pyudunits2/_datetime.py:DateTime"]}
{"id": "C46", "title": "Time text determines the time", "statement": "Two times with the same str are equal, for any int fields.", "quantifier": "every time of day", "why_tests_cant": "86.4e9 values", "anchors": ["pyudunits2/_datetime.py:Time.__str__"]}
{"id": "C47", "title": "Substitution and splitting laws", "statement": "Expanding references commutes with building products, quotients and powers; the dimension part of a definition contains no shift or logarithm node.", "quantifier": "every graph", "why_tests_cant": "all graphs", "anchors": ["pyudunits2/_expr/substitute.py", "pyudunits2/_expr/split.py"]}
{"id": "C48", "title": "The empty text and the dimensionless unit", "statement": "A text parses to the empty expression exactly when it is white space only; unit() of such a text raises NotImplementedError in every system and state and changes nothing. The text of a number is a dimensionless unit, convertible to and from every dimensionless unit.", "quantifier": "every text, system and state", "why_tests_cant": "every text and history", "anchors": ["pyudunits2/_grammar/__init__.py:visitUnit_spec", "pyudunits2/_expr/normaliser.py:generic_visit"]}
{"id": "C49", "title": "Reference dates are never silently dropped", "statement": "Converter never turns a value in one date unit into another without accounting for the reference dates.", "quantifier": "all pairs of date units and values", "why_tests_cant": "A test samples a few pairs of dates; the claim is about every pair of references.", "anchors": ["pyudunits2/_unit.py:DateUnit,Converter"]}
{"id": "C50", "title": "A prefix applied to a unit of the same spelling is that multiple of the unit", "statement": "`mm` (symbol of milli applied to the symbol of meter) is a length: a prefixed unit has the dimensionality of the unit also when prefix and unit are spelled the same.", "quantifier": "all prefixes and units with a common spelling", "why_tests_cant": "Depends on a collision of spellings anywhere in the vocabulary.", "anchors": ["pyudunits2/_unit_system.py:unit_by_name_or_symbol", "pyudunits2/_unit.py:Unit.dimensionality"]}
{"id": "C51", "title": "Converter and is_convertible_to agree on date units", "statement": "Converter(a,b) raises IncompatibleUnitsError whenever a.is_convertible_to(b) is False, also if a or b is a date unit.", "quantifier": "all pairs of units and date units", "why_tests_cant": "Quantifies over all units.", "anchors": ["pyudunits2/_unit.py:Converter.__init__,Unit.is_convertible_to"]}
{"id": "C52", "title": "Dimensionless units convert to numbers", "statement": "Every pair of convertible dimensionless units (radian, 1, percent, degrees) converts to a number.", "quantifier": "all dimensionless units and values", "why_tests_cant": "Quantifies over all dimensionless units.", "anchors": ["pyudunits2/_unit.py:BasisUnit,Converter"]}
{"id": "C53", "title": "Unit equality is sound also for equal texts", "statement": "Units of one system that compare equal have the same dimensionality.", "quantifier": "all pairs of units of one system", "why_tests_cant": "Quantifies over all pairs of texts.", "anchors": ["pyudunits2/_unit.py:Unit.__eq__", "pyudunits2/_expr/graph.py:__str__"]}
{"id": "C54", "title": "History independence also with clashing aliases", "statement": "A look-up returns the same unit whatever was looked up before, also when two units share an alias.", "quantifier": "every system the API can build and every history", "why_tests_cant": "Depends on the order of look-ups in a history.", "anchors": ["pyudunits2/_unit_system.py: UnitSystem.add_unit, LazilyDefinedUnit", "pyudunits2/_unit.py:_unit_from_expression_and_identifiers"]}
{"id": "C55", "title": "Documents are read faithfully", "statement": "The prefixes and units registered from a document are those its tags describe, in document order: prefix values with their names and symbols; base, dimensionless and defined units with their primary names, plurals, symbols and aliases.", "quantifier": "every XML tree", "why_tests_cant": "all trees", "anchors": ["pyudunits2/_udunits2_xml_parser.py:UDUNITS2XMLParser"]}
{"id": "C56", "title": "Doubled spellings in the shipped database", "statement": "In the shipped database the queries read as a prefix followed by a unit of the same spelling are exactly TT, hh, dd, mm, uu and aa; each resolves to a unit with twice the exponents of the unit it is a multiple of (see C50), after every history.", "quantifier": "every query string", "why_tests_cant": "all strings", "anchors": ["pyudunits2/_unit_system.py:unit_by_name_or_symbol", "pyudunits2/udunits2_combined.xml"]}
{"id": "C57", "title": "Every shipped unit name is usable", "statement": "Every name, plural, symbol and alias in the shipped database can be used as a unit string.", "quantifier": "every key of the shipped database", "why_tests_cant": "tests sample a few", "anchors": ["pyudunits2/udunits2_combined.xml", "pyudunits2/_grammar/udunits2Lexer.g4.jinja:ID"]}
{"id": "C58", "title": "CLI explain-unit", "statement": "explain-unit prints the unit's text, its expansion and its dimensionality for every text that is a unit of the shipped system, and stops with the exception of the first of these that is undefined.", "quantifier": "every unit text", "why_tests_cant": "all texts", "anchors": ["pyudunits2/__main__.py:explain_handler"]}
{"id": "C59", "title": "CLI debug-parser", "statement": "For every text the grammar accepts, debug-parser prints one line per token of its unique tokenisation, in order, each with the name the grammar gives to that token and the text of the token; the token texts make up the stripped text.", "quantifier": "every accepted text", "why_tests_cant": "all texts", "anchors": ["pyudunits2/__main__.py:debug_parsing_handler"]}
{"id": "C60", "title": "Expansion is canonical", "statement": "Two products, quotients and integer powers of identifiers have the same expansion exactly when every identifier has the same net exponent in both; the identifiers written in an expansion are those with non-zero net exponent, each with that exponent.", "quantifier": "every pair of graphs", "why_tests_cant": "all graphs", "anchors": ["pyudunits2/_expr/expander.py:ChainedExpr.terms,Expander"]}
{"id": "C61", "title": "Fraction of a second in Time text", "statement": "The digits after the point in str(Time) are the microseconds as a decimal fraction of a second.", "quantifier": "every time with microseconds", "why_tests_cant": "86.4e9 values", "anchors": ["pyudunits2/_datetime.py:Time.__str__"]}
{"id": "C62", "title": "DateTime hash contract", "statement": "Equal DateTimes have equal hashes.", "quantifier": "every pair of DateTimes", "why_tests_cant": "all pairs", "anchors": ["pyudunits2/_datetime.py:DateTime"]}
{"id": "C63", "title": "The generated lexer is the lexer grammar", "statement": "For every text the shipped lexer (the automaton serialised in parser/udunits2Lexer.py, loaded and run by the bundled ANTLR runtime) produces exactly the tokens that the rules of udunits2Lexer.g4.jinja prescribe: same types, same texts, same order; in each mode, for each next token, including the mode it leaves the lexer in. It never reports a recognition error.", "quantifier": "every sequence of Unicode characters, every lexer mode and mode stack", "why_tests_cant": "unboundedly many texts; the automaton has hundreds of states and the runtime's matching (closures, greedy accept states, mode actions) can differ from the rules on texts nobody tries; an out-of-date generated file looks fine on common units", "anchors": ["pyudunits2/_grammar/parser/udunits2Lexer.py:serializedATN", "pyudunits2/_grammar/udunits2Lexer.g4.jinja", "pyudunits2/_grammar/_antlr4_runtime/atn/ATNDeserializer.py", "pyudunits2/_grammar/_antlr4_runtime/atn/LexerATNSimulator.py", "pyudunits2/_grammar/_antlr4_runtime/Lexer.py"]}
{"id": "C64", "title": "Tokens do not depend on history or on other threads", "statement": "All lexers of a process share one transition cache (udunits2Lexer.decisionsToDFA). Whatever texts were tokenised before, and however the steps of lexers running at the same time are interleaved, each lexer ends after a number of its own steps bounded by its text alone, never fails, and yields exactly the tokens the grammar prescribes for its own text.", "quantifier": "every number of lexers, every set of texts, every creation time, every interleaving of their accesses to the shared cache", "why_tests_cant": "ranges over all histories and schedules; races are not reproducible in a test", "anchors": ["pyudunits2/_grammar/parser/udunits2Lexer.py:decisionsToDFA", "pyudunits2/_grammar/_antlr4_runtime/atn/LexerATNSimulator.py:execATN,getExistingTargetState,addDFAEdge,addDFAState", "pyudunits2/_grammar/_antlr4_runtime/dfa/DFA.py"]}
{"id": "C65", "title": "Normalised text parses back to the same expression", "statement": "For every expression the parser can return, parse(str(expr)) is the same expression.", "quantifier": "every parsed expression", "why_tests_cant": "every expression shape", "anchors": ["pyudunits2/_grammar/__init__.py:normalize", "pyudunits2/_expr/graph.py:__str__"]}
{"id": "C66", "title": "A shift operator does not change how later text is read", "statement": "Whether a piece of text is read as a given unit or operator does not depend on a shift (`@`) having occurred earlier in the string, e.g. `(K @ 5) T` is accepted iff `T (K @ 5)` is.", "quantifier": "every pair of sub-expressions", "why_tests_cant": "depends on the tokeniser mode left behind by any prefix", "anchors": ["pyudunits2/_grammar/udunits2Lexer.g4.jinja:SHIFT_OP,SHIFT_MODE"]}
{"id": "C67", "title": "Superscripts mean powers", "statement": "For every unit and integer n, the superscript spelling has the same dimensionality as `^n`.", "quantifier": "every unit and exponent", "why_tests_cant": "every exponent and unit", "anchors": ["pyudunits2/_grammar/__init__.py:handle_UNICODE_EXPONENT", "pyudunits2/_expr/dimensionality.py"]}
{"id": "C68", "title": "Units returned by a direct look-up behave like units", "statement": "unit_by_name_or_symbol(name) can be used wherever unit(name) can: is_convertible_to and Converter work on it.", "quantifier": "every unit", "why_tests_cant": "every pair of units", "anchors": ["pyudunits2/_unit.py:BasisUnit.dimensionality", "pyudunits2/_unit_system.py:unit_by_name_or_symbol,unit"]}
{"id": "C69", "title": "The empty unit string is the dimensionless unit", "statement": "unit('') is a usable dimensionless unit as in UDUNITS-2.", "quantifier": "the empty text, every system", "why_tests_cant": "every system state", "anchors": ["pyudunits2/_grammar/__init__.py:visitUnit_spec", "pyudunits2/_expr/normaliser.py:generic_visit"]}
{"id": "C70", "title": "Scaling an offset or logarithmic unit scales it", "statement": "`n*u` means n of u: converting from n*u to u's base scale multiplies by n also when u carries a shift or a logarithm (e.g. dBm is a tenth of Bm), and a product of such a unit with another unit keeps the dimensions of both.", "quantifier": "every unit, number and value", "why_tests_cant": "every unit, number and real value", "anchors": ["pyudunits2/_expr/split.py:visit_Multiply"]}
{"id": "C71", "title": "The generated parser is the parser grammar", "statement": "For every token sequence the shipped parser (the functions and the serialised automaton of parser/udunits2Parser.py, with the prediction of the bundled ANTLR runtime, first with local and then, on conflicts, with full context) returns exactly the preferred derivation of udunits2Parser.g4 and reports an error exactly if there is no derivation. Each prediction is the first alternative with which the rest of the input can be matched. So parse(text) with the generated lexer and parser is the function described by the grammars.", "quantifier": "every token sequence, every decision, parser stack and remaining input, every text", "why_tests_cant": "unboundedly many inputs and stacks; prediction goes through configuration sets and conflict analysis", "anchors": ["pyudunits2/_grammar/parser/udunits2Parser.py:udunits2Parser,serializedATN", "pyudunits2/_grammar/_antlr4_runtime/atn/ParserATNSimulator.py:adaptivePredict,execATN,computeReachSet,closure,execATNWithFullContext", "pyudunits2/_grammar/_antlr4_runtime/atn/PredictionMode.py", "pyudunits2/_grammar/__init__.py:parse"]}
{"id": "C72", "title": "parse() does not depend on history or on other threads", "statement": "All calls of parse() in a process share two caches (decisionsToDFA of the lexer and of the parser). Whatever was parsed before, and however the accesses of calls running at the same time are interleaved, each call ends, never waits, never fails because of another call, and has exactly the result prescribed for its own text.", "quantifier": "every number of calls, every set of texts, every start time, every interleaving of accesses to the shared caches", "why_tests_cant": "unboundedly many schedules and histories", "anchors": ["pyudunits2/_grammar/parser/udunits2Parser.py:decisionsToDFA", "pyudunits2/_grammar/parser/udunits2Lexer.py:decisionsToDFA", "pyudunits2/_grammar/_antlr4_runtime/atn/ParserATNSimulator.py:adaptivePredict,addDFAEdge,addDFAState", "pyudunits2/_grammar/__init__.py:parse"]}
{"id": "C73", "title": "is_dimensionless and is_time_unit", "statement": "is_dimensionless() is True exactly when no basis unit occurs with a non-zero exponent, following all definitions; for the units a system returns it is the same as being convertible to a plain number (and raises the same errors). A unit is never both dimensionless and a time unit; a date unit is a time unit counted in a time unit, and not dimensionless.", "quantifier": "every unit, every definition depth", "why_tests_cant": "all expressions and definitions", "anchors": ["pyudunits2/_unit.py:Unit.is_dimensionless,Unit.is_time_unit,DateUnit.is_dimensionless,DateUnit.is_time_unit"]}
{"id": "C74", "title": "Unit equality is transitive between units with different texts", "statement": "If u == v and v == w, and the text of v differs from those of u and w, then u == w: with exact arithmetic for all units; with the rounded numbers of the code (at most 15 digits written) for units without offset and logarithm, unless v is written with decimals and u and w are not.", "quantifier": "all triples of units", "why_tests_cant": "all triples", "anchors": ["pyudunits2/_unit.py:Unit.__eq__"]}
{"id": "C75", "title": "Unit equality is transitive", "statement": "If u == v and v == w then u == w.", "quantifier": "all triples of units of one system", "why_tests_cant": "all triples", "anchors": ["pyudunits2/_unit.py:Unit.__eq__", "pyudunits2/_expr/graph.py:__str__"]}
{"id": "C76", "title": "One UnitSystem can be used from many threads", "statement": "Any number of threads call unit() and unit_by_name_or_symbol() on one system, at any moments, with any texts, while other threads call parse(). If no word of the system is claimed twice, every call that returns or raises gives what the same call gives alone on the system as first built (unless one of the two runs out of stack; with acyclic definitions and enough stack, always; for the shipped database a stack of 8 look-ups is enough). Which words are known never changes, no thread ever waits for another, and every thread ends after finitely many steps of its own.", "quantifier": "all systems without clashing words, all numbers of threads, all texts, all interleavings of dictionary and attribute accesses", "why_tests_cant": "interleavings are unboundedly many", "anchors": ["pyudunits2/_unit_system.py:UnitSystem.unit,UnitSystem.unit_by_name_or_symbol,UnitSystem._unit_by_name,UnitSystem._unit_by_symbol,UnitSystem.add_unit,LazilyDefinedUnit.resolve", "pyudunits2/_grammar/__init__.py:parse"]}
{"id": "C77", "title": "Units and prefixes can be registered after look-ups", "statement": "In any history in which unit() and unit_by_name_or_symbol() calls (successful or failing) alternate with add_unit() and add_prefix(), where no word is claimed twice and each registration leaves every text that could be read before with the reading it had: every call returns exactly what it returns on a system that received the same registrations and was never asked before (unless one of the two runs out of stack; never if definitions are less deep than the stack), and every text that had a unit before keeps exactly that unit. A registration is harmless in this sense if none of its words could be read before, alone or behind a prefix; or if it is a prefix with new spellings whose name in front of a known word could not be read before.", "quantifier": "all systems, all histories of calls and registrations, all texts, all set orders", "why_tests_cant": "histories of unbounded length over arbitrary systems", "anchors": ["pyudunits2/_unit_system.py:UnitSystem.add_unit,UnitSystem.add_prefix,UnitSystem.unit,UnitSystem.unit_by_name_or_symbol,LazilyDefinedUnit.resolve"]}
{"id": "C78", "title": "Answers depend only on what is registered", "statement": "What unit() returns depends on the units and prefixes registered at that moment, not on what had been looked up before they were registered, also when a registration gives a new meaning to a text that could already be read.", "quantifier": "all systems, registrations and histories", "why_tests_cant": "histories of unbounded length over arbitrary systems", "anchors": ["pyudunits2/_unit_system.py:UnitSystem.add_unit,UnitSystem.add_prefix,UnitSystem.unit,UnitSystem.unit_by_name_or_symbol,LazilyDefinedUnit.resolve"]}
{"id": "C79", "title": "Units can be registered by some threads while others look units up", "statement": "Threads call add_unit() with units whose words are new (each word of one unit; a text that can be read with a new word can be read in no other way) while other threads call unit() and unit_by_name_or_symbol() on the same system. Whatever the interleaving: a look-up that returns gave the answer of the system in which all those units are registered, or raised UnresolvableUnitException for a word it needed and that could not be read yet when the call was made; whatever had an answer before the registrations has exactly that answer throughout; once an add_unit() has returned, its words are known in every later moment and words never vanish; a look-up made after all registrations have returned answers as the full system; add_unit() raises only if a word of the unit is in the system already; no thread waits for another and each ends (unless the stack runs out; never if definitions are less deep than the stack).", "quantifier": "all systems, all sets of units with new words, all numbers of threads, all interleavings of single accesses, all requests", "why_tests_cant": "schedules cannot be enumerated by tests", "anchors": ["pyudunits2/_unit_system.py:UnitSystem.add_unit,UnitSystem.unit,UnitSystem.unit_by_name_or_symbol,LazilyDefinedUnit.resolve"]}
{"id": "C80", "title": "A name is given away once", "statement": "Of two add_unit() calls (replace=False) that register different units under the same name, one raises ValueError, also when they run in two threads.", "quantifier": "all systems, units and interleavings", "why_tests_cant": "needs a particular schedule", "anchors": ["pyudunits2/_unit_system.py:UnitSystem.add_unit,UnitSystem.unit,UnitSystem.unit_by_name_or_symbol,LazilyDefinedUnit.resolve"]}
{"id": "C81", "title": "A registration happens at one instant", "statement": "A look-up made while a unit is being registered in another thread answers as if made before or after the registration, also when the new words could already be read in another way.", "quantifier": "all systems, units, texts and interleavings", "why_tests_cant": "needs a particular schedule", "anchors": ["pyudunits2/_unit_system.py:UnitSystem.add_unit,UnitSystem.unit,UnitSystem.unit_by_name_or_symbol,LazilyDefinedUnit.resolve"]}
{"id": "C82", "title": "Prefixes and units can be registered by some threads while others look units up", "statement": "Threads call add_prefix() with prefixes whose names and symbols are new and add_unit() with units whose words are new (a text that can be read with a new prefix or a new word can in the end be read in no other way) while other threads call unit() and unit_by_name_or_symbol() on the same system. Whatever the interleaving: a look-up that has ended gave the answer of the system in which everything is registered, or raised UnresolvableUnitException for a word it needed and that could not be read when the call was made, or raised RuntimeError and some prefix was not yet registered when the call was made; whatever had an answer before gets exactly that answer or one of RecursionError and RuntimeError, never another unit; once add_prefix() or add_unit() has returned, what it registered is there in every later moment and nothing ever vanishes; a look-up made after all registrations have returned answers as the full system (in particular without RuntimeError, however often the same prefixes are registered again); no thread waits for another and each ends.", "quantifier": "all systems, all sets of new units and new prefixes, all numbers of threads, all interleavings of single accesses, all requests", "why_tests_cant": "schedules cannot be enumerated by tests", "anchors": ["pyudunits2/_unit_system.py:UnitSystem.add_prefix,UnitSystem.add_unit,UnitSystem.unit,UnitSystem.unit_by_name_or_symbol,LazilyDefinedUnit.resolve"]}
{"id": "C83", "title": "A look-up succeeds while a prefix is registered elsewhere", "statement": "A text that has the same answer before and after add_prefix() gets that answer also when the look-up runs while another thread is inside add_prefix().", "quantifier": "all systems, prefixes, texts and interleavings", "why_tests_cant": "needs a particular schedule", "anchors": ["pyudunits2/_unit_system.py:UnitSystem.add_prefix,UnitSystem.add_unit,UnitSystem.unit,UnitSystem.unit_by_name_or_symbol,LazilyDefinedUnit.resolve"]}
{"id": "C84", "title": "The recursion limit changes no answer of parse and normalize", "statement": "parse() either gives the answer it would give on an unlimited stack or raises RecursionError; a higher recursion limit keeps every answer; for a text of n characters, b of them opening brackets, room for 4n+12b+36 frames is enough for building the expression (if it is enough for lexer and parser); a text that parses has an exact threshold, above four times the depth of its expression; normalize() raises RecursionError only where parse() does.", "quantifier": "every text, every limit, every number of frames taken by the lexer and the generated parser", "why_tests_cant": "every text and every depth of the caller's stack", "anchors": ["pyudunits2/_grammar/__init__.py:parse,normalize,UnitParseVisitor", "pyudunits2/_grammar/_antlr4_runtime/tree/Tree.py:ParseTreeVisitor", "pyudunits2/_expr/graph.py:Multiply.__str__"]}
{"id": "C85", "title": "A text is parsed however long it is", "statement": "Every text the grammar accepts is parsed, whatever the recursion limit: at no length does parse() of a product of units fail.", "quantifier": "every text, every recursion limit", "why_tests_cant": "the length at which it fails depends on the limit and the caller", "anchors": ["pyudunits2/_grammar/__init__.py:parse,normalize,UnitParseVisitor", "pyudunits2/_grammar/_antlr4_runtime/tree/Tree.py:ParseTreeVisitor", "pyudunits2/_expr/graph.py:Multiply.__str__"]}
{"id": "C86", "title": "Dimensionalities are finite maps of exponents", "statement": "The object unit.dimensionality() returns has one entry per basis unit with a non-zero exponent and no other: items(), keys(), values() and len() agree on them. Two such objects are == exactly when all exponents agree (an equivalence relation), and one is == a dict from names to ints exactly when the dict has these entries. inverted() negates every exponent, is its own inverse, and equals the original only for the empty map. Two of them with the same str() are equal.", "quantifier": "every unit, every pair of units, every dict", "why_tests_cant": "ranges over all expressions and all dictionaries", "anchors": ["pyudunits2/_unit.py:Dimensionality", "pyudunits2/_unit.py:Unit.dimensionality", "pyudunits2/_unit.py:DateUnit.dimensionality"]}
{"id": "C87", "title": "Equal dimensionalities are displayed alike", "statement": "If two dimensionalities are == then their str() is the same text.", "quantifier": "every pair of units", "why_tests_cant": "ranges over all pairs of units", "anchors": ["pyudunits2/_unit.py:Dimensionality", "pyudunits2/_unit.py:Unit.dimensionality", "pyudunits2/_unit.py:DateUnit.dimensionality"]}
{"id": "C88", "title": "Conversions and comparisons do not depend on history or on other threads", "statement": "Unit objects may be shared: however the steps of any number of threads that compare units and build Converters from them are interleaved, every comparison and every Converter is what it would be alone in a fresh process; what is remembered for a unit is set once and never changes; nobody waits for anybody, and every request is answered.", "quantifier": "every set of unit objects, every list of requests per thread, every interleaving", "why_tests_cant": "the order of the accesses of different threads cannot be enumerated", "anchors": ["pyudunits2/_unit.py:Unit._symbolic_definition", "pyudunits2/_unit.py:Unit.__eq__", "pyudunits2/_unit.py:Converter.__init__", "pyudunits2/_unit.py:DateUnit._symbolic_definition"]}
{"id": "C89", "title": "Converted values are accurate", "statement": "For units without offset or logarithm, if every arithmetic operation (reading a literal, multiplying, dividing, taking a power, printing the factor, applying it to the value) returns a number within a relative distance eps of the exact result, the converted value is within 2*k*eps (relative) of the exact one, where k is the number of such operations in the two written-out definitions plus 4; also for conversions to the inverse unit.", "quantifier": "all units, values and eps with k*eps <= 1/2, all admissible rounding choices", "why_tests_cant": "every rounding choice, value and definition; a test compares a few values with a tolerance", "anchors": ["pyudunits2/_unit.py:Converter.__init__", "pyudunits2/_unit.py:Converter.convert", "pyudunits2/_expr/sympy.py:sympy_parse"]}
{"id": "C90", "title": "A text means what it is written out to", "statement": "Writing out a unit text in basis units, by replacing each word by its definition and each prefix by its value, gives at most one expression; whenever that expression has a meaning (products, quotients, integer powers, logarithms, one offset outside; not a time with an offset), unit(text) succeeds, its fully expanded definition is that expression, and Converters between two such texts of equal (or opposite) exponents carry a value to the value of the same (or reciprocal) quantity as computed from the two expressions - on the shipped database after every sequence of earlier calls, with room for 8 nested lookups.", "quantifier": "every text, every system without clashes, the shipped database with either reader, every history, set order and stack of at least 8", "why_tests_cant": "all texts, histories and orders", "anchors": ["pyudunits2/_unit_system.py:UnitSystem.unit", "pyudunits2/_unit_system.py:UnitSystem.unit_by_name_or_symbol", "pyudunits2/_unit.py:Unit._expanded_expr", "pyudunits2/_unit.py:Converter.__init__", "pyudunits2/udunits2_combined.xml"]}
{"id": "C91", "title": "Every usable word of the shipped database is measured and converts accurately", "statement": "Each word of the shipped database that unit() accepts, except the eight spellings of torr/mmHg, is written out in basis units with at most 21 arithmetic operations (33 of them with an offset or logarithm). Two units each named by such a word without offset or logarithm, with or without a prefix of different spelling, convert by the quotient of the two factors whenever their exponents agree, and with arithmetic of relative accuracy eps <= 1/100 the result is within 100*eps of it.", "quantifier": "every pair of words and prefixes of the shipped database, every value, history, order, rounding", "why_tests_cant": "about 10^8 pairs of prefixed words and all values, histories and roundings", "anchors": ["pyudunits2/_unit_system.py:UnitSystem.unit", "pyudunits2/_unit_system.py:UnitSystem.unit_by_name_or_symbol", "pyudunits2/_unit.py:Unit._expanded_expr", "pyudunits2/_unit.py:Converter.__init__", "pyudunits2/udunits2_combined.xml"]}
{"id": "C92", "title": "torr is a unit of pressure", "statement": "unit('torr') (millimetre of mercury) can be converted to unit('pascal').", "quantifier": "the shipped database, every history and order", "why_tests_cant": "every history and set order", "anchors": ["pyudunits2/_unit_system.py:UnitSystem.unit", "pyudunits2/_unit_system.py:UnitSystem.unit_by_name_or_symbol", "pyudunits2/_unit.py:Unit._expanded_expr", "pyudunits2/_unit.py:Converter.__init__", "pyudunits2/udunits2_combined.xml"]}
{"id": "C93", "title": "Temperatures convert accurately", "statement": "For units with or without an offset (not logarithmic), if every arithmetic operation returns a number within a relative distance eps of the exact result, the converted value differs from the exact f*(v + offset1) - offset2 by at most 2*k*eps*(|f*v| + |f*offset1| + |offset2|), k being the number of operations in the two definitions plus 9; for any two words of the shipped database, temperatures included, 2*k is at most 102.", "quantifier": "all units, values, eps and admissible rounding choices; every pair of usable non-logarithmic words of the shipped database, every history and order", "why_tests_cant": "every rounding choice, value and definition; a test compares a few temperatures with a tolerance", "anchors": ["pyudunits2/_unit.py:Converter.__init__", "pyudunits2/_unit.py:Converter.convert", "pyudunits2/_expr/sympy.py:sympy_parse", "pyudunits2/_expr/split.py", "pyudunits2/udunits2_combined.xml"]}
{"id": "C94", "title": "The text of expanded(), read back", "statement": "unit(text).expanded() is a text that is read strictly from left to right without brackets, each exponent going to the last factor; it is a SyntaxError if two exponents follow each other. If the expansion has no power of a product or of a power and no division by a product, unit(unit(text).expanded()) is the same unit: converting between the two changes no value. Of the usable words of the shipped database (torr apart) exactly 66, such as liter, hectare, farad, siemens, knot, rpm and psi, have an expansion that reads as another unit.", "quantifier": "every text written out in basis units on the shipped database, every word of it, every history, order and value", "why_tests_cant": "all texts, words, histories and orders; the existing tests compare a few expanded() texts with fixed strings", "anchors": ["pyudunits2/_unit.py:Unit.expanded", "pyudunits2/_expr/graph.py:Multiply.__str__", "pyudunits2/_expr/graph.py:Raise.__str__", "pyudunits2/_unit_system.py:UnitSystem.unit", "pyudunits2/__main__.py:explain_handler", "pyudunits2/udunits2_combined.xml"]}
{"id": "C95", "title": "expanded() says what the unit is", "statement": "unit(x.expanded()) is the unit x, and the basis form that explain-unit prints is that of the unit.", "quantifier": "all words of the shipped database, every history and order", "why_tests_cant": "every word, history and order", "anchors": ["pyudunits2/_unit.py:Unit.expanded", "pyudunits2/_expr/graph.py:Multiply.__str__", "pyudunits2/_expr/graph.py:Raise.__str__", "pyudunits2/_unit_system.py:UnitSystem.unit", "pyudunits2/__main__.py:explain_handler", "pyudunits2/udunits2_combined.xml"]}
{"id": "C96", "title": "Texts with a reference date", "statement": "unit('X since DATE'), X being written out to a unit of time, is the date unit of X and that date, whatever X is made of; if X is anything but a time the text is refused. expanded() of it is the expansion of X, ' since ' and the date, and if the brackets of the expansion do not matter (as in C94) that text gives a date unit with the same date and an equal time unit.", "quantifier": "every text with a shift, every unit expression written out in basis units on the shipped database, every date of the grammar, every history and order", "why_tests_cant": "all texts, dates, histories and orders", "anchors": ["pyudunits2/_unit_system.py:UnitSystem.unit", "pyudunits2/_unit.py:DateUnit", "pyudunits2/_unit.py:DateUnit.expanded", "pyudunits2/_unit.py:Unit.is_time_unit", "pyudunits2/_unit.py:_unit_from_expression_and_identifiers", "pyudunits2/_expr/graph.py:Shift.__str__"]}
{"id": "C97", "title": "Replacing a unit", "statement": "add_unit(unit, replace=True) never fails. From then on every name of the unit gives that unit, in look-ups and in texts, whatever is looked up in between, provided no definition that is still to be resolved (and that some word leads to) claims the same name; the same for symbols that are no names. It is enough that the new unit takes all the names, symbols and aliases of the unresolved unit it replaces.", "quantifier": "every system the API can build, every unit and reference, every history of look-ups (successful or not), every stack and set order", "why_tests_cant": "all systems, histories and orders", "anchors": ["pyudunits2/_unit_system.py:UnitSystem.add_unit", "pyudunits2/_unit_system.py:UnitSystem._unit_by_name", "pyudunits2/_unit_system.py:UnitSystem._unit_by_symbol", "pyudunits2/_unit_system.py:LazilyDefinedUnit.resolve"]}
{"id": "C98", "title": "A replaced unit stays replaced", "statement": "After add_unit(unit, replace=True) the names of the unit lead to it until they are replaced again.", "quantifier": "every system and every history of look-ups", "why_tests_cant": "it fails only for particular histories: a look-up of a word not replaced puts the old unit back", "anchors": ["pyudunits2/_unit_system.py:UnitSystem.add_unit", "pyudunits2/_unit_system.py:UnitSystem._unit_by_name", "pyudunits2/_unit_system.py:UnitSystem._unit_by_symbol", "pyudunits2/_unit_system.py:LazilyDefinedUnit.resolve"]}
{"id": "C99", "title": "Unit equality with rounded numbers", "statement": "For units without offset and logarithm, with a basis unit in them, and with numbers rounded to the nearest binary number, ties to even (as sympy's Floats are): u == v is reflexive and symmetric; units whose written-out definitions are identical are equal; and if u == v although their texts differ, they have the same exponents of all basis units and their factors differ by at most 2*k*2^-52 (relative), k being the number of roundings in the two written-out definitions plus 1.", "quantifier": "all pairs of units, all values of the power function within its accuracy", "why_tests_cant": "all pairs and all numbers; rounding depends on every literal", "anchors": ["pyudunits2/_unit.py:Unit.__eq__", "pyudunits2/_expr/sympy.py:ToSympy.visit_Number"]}
{"id": "C100", "title": "Units of the same quantity are equal", "statement": "Two texts that denote exactly the same multiple of the same basis units give equal units.", "quantifier": "every pair of texts", "why_tests_cant": "it fails only for particular numbers, such as 3 dm and 0.3 m", "anchors": ["pyudunits2/_unit.py:Unit.__eq__", "pyudunits2/_expr/sympy.py:ToSympy.visit_Number"]}
{"id": "C101", "title": "Unit equality is transitive between all units with different texts", "statement": "If u == v and v == w, and the texts differ, then u == w, whatever numbers are written in them.", "quantifier": "all triples of units", "why_tests_cant": "it fails only for particular numbers", "anchors": ["pyudunits2/_unit.py:Unit.__eq__", "pyudunits2/_expr/sympy.py:ToSympy.visit_Number"]}
{"id": "C102", "title": "Names of the shipped database compare exactly", "statement": "In the shipped database two units given by a single name or symbol (not one of the temperature-like or logarithmic ones, and with a basis unit) are equal if and only if they have the same exponents and exactly the same factor, in spite of rounding.", "quantifier": "all pairs of names and symbols of the database, every history of look-ups, every set order", "why_tests_cant": "all pairs (over 600000) after any history", "anchors": ["pyudunits2/_unit.py:Unit.__eq__", "pyudunits2/_expr/sympy.py:ToSympy.visit_Number", "pyudunits2/udunits2_combined.xml"]}
{"id": "C103", "title": "Which parts of an XML document count", "statement": "UDUNITS2XMLParser.parse_file reads the one element called unit-system of the document. If every element in it has a namespace, the result depends only on local names, on the texts in front of the first child up to blanks around them, and on the nesting: which namespaces they are, attributes, text after end tags and everything outside that element make no difference, for the default and the strict reader. Without or with several unit-system elements ValueError is raised; a comment or processing instruction inside it raises AttributeError; and if no element in it has a namespace the default reader returns an empty system and the strict one raises ValueError (unless the element is empty).", "quantifier": "all documents, both readers, all set orders", "why_tests_cant": "all trees and all ways to decorate them", "anchors": ["pyudunits2/_udunits2_xml_parser.py:Tag.from_element", "pyudunits2/_udunits2_xml_parser.py:UDUNITS2XMLParser.parse_file"]}
{"id": "C104", "title": "Namespaces do not matter", "statement": "A document read without namespaces (as in the files of UDUNITS-2 itself) gives the same system as with them.", "quantifier": "all documents", "why_tests_cant": "tests use documents with namespaces", "anchors": ["pyudunits2/_udunits2_xml_parser.py:Tag.from_element", "pyudunits2/_udunits2_xml_parser.py:UDUNITS2XMLParser.parse_file"]}
{"id": "C105", "title": "Comments do not matter", "statement": "Comments in an XML unit database do not change what is read.", "quantifier": "all documents", "why_tests_cant": "the shipped file has its only comment outside the unit-system element", "anchors": ["pyudunits2/_udunits2_xml_parser.py:Tag.from_element", "pyudunits2/_udunits2_xml_parser.py:UDUNITS2XMLParser.parse_file"]}
{"id": "C106", "title": "The text of a file, read", "statement": "Every document written out as XML text (escaped, with namespace prefixes) is read back as that document, and so gives its unit system; and the bytes of the shipped file, decoded as UTF-8, give exactly the database all statements about shipped words are about.", "quantifier": "all documents; every byte of the shipped file; both readers, all set orders", "why_tests_cant": "all documents", "anchors": ["pyudunits2/_udunits2_xml_parser.py:Tag.from_element", "pyudunits2/_udunits2_xml_parser.py:UDUNITS2XMLParser.parse_file", "pyudunits2/udunits2_combined.xml"]}
{"id": "C107", "title": "ASCII files are read alike everywhere", "statement": "A unit database of ASCII characters is read as the same system whether the locale's encoding is UTF-8, Latin-1 or Windows-1252.", "quantifier": "every file of ASCII bytes, every pair of locales (UTF-8, Latin-1, Windows-1252)", "why_tests_cant": "all files; tests run in one locale", "anchors": ["pyudunits2/_udunits2_xml_parser.py:Tag.from_element", "pyudunits2/_udunits2_xml_parser.py:UDUNITS2XMLParser.parse_file"]}
{"id": "C108", "title": "The shipped database is the same everywhere", "statement": "The words the shipped database offers do not depend on the locale of the process.", "quantifier": "all words, locales with UTF-8 and Latin-1", "why_tests_cant": "tests run in one locale", "anchors": ["pyudunits2/_udunits2_xml_parser.py:Tag.from_element", "pyudunits2/_udunits2_xml_parser.py:UDUNITS2XMLParser.parse_file", "pyudunits2/udunits2_combined.xml"]}
{"id": "C109", "title": "== and hash() of unit objects", "statement": "a == b for two unit objects (Unit, NamedUnit or BasisUnit, in either order) is the comparison of the units, and a != b its negation. A unit never equals an object that is no unit, a date unit equals itself and nothing else, and neither comparison raises. Equal objects that can be hashed have equal hashes; two basis units are equal exactly if their reference names agree, and dicts with basis units as keys (such as those of dimensionalities) find them by that name.", "quantifier": "all objects of all classes, at all addresses; all dicts", "why_tests_cant": "all pairs of objects and orders of operands", "anchors": ["pyudunits2/_unit.py:Unit.__eq__", "pyudunits2/_unit.py:BasisUnit.__hash__", "pyudunits2/_unit.py:DateUnit"]}
{"id": "C110", "title": "Date units of one text are equal", "statement": "unit(text) == unit(text) also when the text has a reference date.", "quantifier": "all texts with a reference date", "why_tests_cant": "all texts", "anchors": ["pyudunits2/_unit.py:DateUnit"]}
{"id": "C111", "title": "Units are hashable", "statement": "The units that unit() returns can be members of sets and keys of dicts.", "quantifier": "all systems and texts", "why_tests_cant": "all texts", "anchors": ["pyudunits2/_unit.py:Unit"]}
{"id": "C112", "title": "Values of logarithmic units are converted accurately", "statement": "For units without an offset, logarithmic or not on either side (such as bel, BW, neper), if every arithmetic operation, exp and log included, returns a number within a relative distance eps of the exact result, the converted value differs from the exact one by at most 2*d*|exact| if the target is no logarithm, and by at most 2*d/ln(b) + 6*eps*|exact| if it is a logarithm to base b. d is eps*(2*k + 3*|v|*ln(b1)): k is the number of operations in the two definitions plus 5, and the last term appears if the value v is a level to base b1. For any two words of the shipped database without offset, the seven bels included, 2*k is at most 94.", "quantifier": "all units, values, eps with d <= 1/2 and admissible rounding choices; every pair of usable words without offset of the shipped database, every history and order", "why_tests_cant": "every rounding choice, value and definition; a test compares a few levels with a tolerance", "anchors": ["pyudunits2/_unit.py:Converter.__init__", "pyudunits2/_unit.py:Converter.convert", "pyudunits2/_expr/sympy.py:sympy_parse", "pyudunits2/_expr/split.py", "pyudunits2/udunits2_combined.xml"]}
{"id": "C113", "title": "Arrays are converted element by element", "statement": "Converter.convert, given an array of floats of any shape, returns an array of that shape whose every element is what convert gives for that element alone (nan or inf where it has no value, without disturbing the others); neither the given array nor any other is changed, and the result is a new array whenever the conversion changes any number. If convert raises NameError for numbers it does so for arrays, and numbers are converted as by the expression.", "quantifier": "all pairs of units, all arrays, all contents of memory", "why_tests_cant": "all arrays and units; a test converts three arrays", "anchors": ["pyudunits2/_unit.py:Converter.__init__", "pyudunits2/_unit.py:Converter.convert", "README.md"]}
{"id": "C114", "title": "Converting makes a new array", "statement": "The array that convert returns is a new one, so writing to it leaves the array that was converted alone.", "quantifier": "all pairs of units and arrays", "why_tests_cant": "all pairs of units; depends on the expression sympy is left with", "anchors": ["pyudunits2/_unit.py:Converter.__init__", "pyudunits2/_unit.py:Converter.convert"]}
{"id": "C115", "title": "What a command line means", "statement": "A subcommand is given exactly the values on the line: arguments that do not begin with '-' (or are '-', or what Python takes for a negative number, or contain a space), and everything after one '--'; the same values give the same result however they are passed. -h or --help (or a beginning of it) before any '--' shows help on standard output with status 0 whatever else is wrong after it; an option the program does not have, a wrong number of values or an unknown subcommand is status 2 with nothing on standard output; no subcommand is status 1. A unit text is never taken for a request for help, and every unit text can be passed after '--'.", "quantifier": "all command lines, but for a program name that begins with '-', arguments like -hx, a second '--' and a '--' before the subcommand; all unit texts", "why_tests_cant": "all command lines and texts", "anchors": ["pyudunits2/__main__.py:configure_parser", "pyudunits2/__main__.py:main"]}
{"id": "C116", "title": "Unit texts can be given as arguments as they are", "statement": "explain-unit reads every text that is a unit when it is given as its argument.", "quantifier": "all unit texts", "why_tests_cant": "all texts", "anchors": ["pyudunits2/__main__.py:configure_parser", "pyudunits2/__main__.py:main"]}
{"id": "C117", "title": "ASCII texts mean the same in every locale", "statement": "The shipped XML file can be read in UTF-8, Latin-1 and Windows-1252 locales, and although its non-ASCII words come out differently (C108), every ASCII text gives, with any of the systems so read, a unit with the same text, dimensionality, expansion and conversions, or is refused by all, even where the definition of a unit used contains a degree sign.", "quantifier": "all ASCII texts, all pairs of locales, readers, storage orders of sets, visiting orders, histories and sufficient stacks", "why_tests_cant": "all texts, all histories, and a locale tests do not run in", "anchors": ["pyudunits2/_udunits2_xml_parser.py:XmlFile", "pyudunits2/_unit_system.py:UnitSystem.unit"]}
{"id": "C118", "title": "Which exceptions a query or text can raise", "statement": "In a system where no word is claimed twice, an exception of unit_by_name_or_symbol(q) or unit(text) other than RecursionError is always a fault of the query or text itself: a syntax error in it or in the definition of a word it uses, a word that cannot be read, or a unit that cannot be made of resolvable words. With acyclic definitions every such fault is the exception of some visiting order after any history; a text without fault has a unit in every order and one with a fault in none; the exception is the same in all orders exactly if there is one fault. For the shipped database the exceptions of all words are listed: unit_by_name_or_symbol raises one exception per word in every order, unit(w) one for 45 of the 57 words it refuses.", "quantifier": "all clash-free systems, all visiting orders, histories, stacks, queries and texts; all readers and storage orders of the shipped file", "why_tests_cant": "PYTHONHASHSEED sampling and unbounded histories; definitions of any depth", "anchors": ["pyudunits2/_unit_system.py:UnitSystem.unit", "pyudunits2/_unit_system.py:LazilyDefinedUnit.resolve", "pyudunits2/_unit_system.py:UnitSystem.unit_by_name_or_symbol"]}
{"id": "C119", "title": "The exception does not depend on set iteration order", "statement": "A text that cannot be resolved raises the same exception whatever the order in which the set of its identifiers is visited (the hash seed).", "quantifier": "every text with a fault and every pair of visiting orders", "why_tests_cant": "PYTHONHASHSEED sampling", "anchors": ["pyudunits2/_unit_system.py:UnitSystem.unit"]}
{"id": "C120", "title": "Unit texts can be built from unit texts", "statement": "If texts are accepted, then the text made by putting each into brackets and joining the brackets with *, ·, -, a blank or nothing (product), / or per (quotient), ^n, **n or n (power) or wrapping one as lg(re (...)) is accepted, stands for exactly the product, quotient, power or logarithm of what the parts stand for, and can be a part again, to any depth; the parts must not contain a shift operator (@, after, from, since, ref), and may have no white space around them. An offset can be put behind the whole. The unit of the text has the definition composed of the written-out definitions of the parts.", "quantifier": "all recipes of any depth over all accepted texts, all spellings, all integer exponents of at most 4300 digits, all systems, histories and visiting orders", "why_tests_cant": "the texts are arbitrary and nested to any depth; what the lexer does with a piece depends on all the text before it", "anchors": ["pyudunits2/_grammar/__init__.py:parse", "pyudunits2/_grammar/parser/udunits2Lexer.g4.jinja", "pyudunits2/_grammar/parser/udunits2Parser.g4", "pyudunits2/_unit_system.py:UnitSystem.unit"]}
{"id": "C121", "title": "Where a text may not have a blank", "statement": "No accepted text has a blank before a multiplication sign or an exponent, or behind an opening bracket, a multiplication sign, ^ or lg(re. So (a)*(b) is a product for all parts while (a) *(b) and (a)* (b) are refused; (a)^n and (a)n are powers, (a) ^n and (a)^ n are refused, and (a) n is the product of a and n; a text that starts with an opening bracket and a blank and ends with a closing bracket is refused whatever is between.", "quantifier": "all accepted texts; all parts, signs and exponents", "why_tests_cant": "every text", "anchors": ["pyudunits2/_grammar/__init__.py:parse", "pyudunits2/_grammar/parser/udunits2Parser.g4"]}
{"id": "C122", "title": "Blanks between the parts of a text do not matter", "statement": "Adding a blank beside an operator or a bracket, or a second blank where one is allowed, does not change what a unit text stands for.", "quantifier": "every accepted text and every place", "why_tests_cant": "every text", "anchors": ["pyudunits2/_grammar/__init__.py:parse", "pyudunits2/_grammar/parser/udunits2Parser.g4"]}
{"id": "C123", "title": "Laws of products, quotients and powers of unit texts", "statement": "Unit texts that are the same product of the same parts by the laws of multiplication (order, grouping, cancelling, powers of powers, a^0, a^(m+n), (ab)^n, ...), or in which every part has the same net power, are the same unit: whatever was looked up before, both are units, a value of the one converts unchanged into the other, and they are == when all their numbers are whole. If a to a' has the conversion factor k and b to b' the factor l, then (a)(b) to (a')(b') has the factor k l, (a)/(b) to (a')/(b') has k/l and (a)^n to (a')^n has k^n.", "quantifier": "all texts of any depth put together in any spelling from accepted parts without offsets and logarithms, all integer exponents, all laws applied any number of times, all systems, histories and set orders", "why_tests_cant": "the laws can be applied any number of times at any depth to arbitrary texts", "anchors": ["pyudunits2/_unit_system.py:UnitSystem.unit", "pyudunits2/_unit.py:Converter", "pyudunits2/_unit.py:Unit.__eq__", "pyudunits2/_expr/sympy.py", "pyudunits2/_grammar/parser/udunits2Parser.g4"]}
{"id": "C124", "title": "Unit texts equal by the laws of multiplication are ==", "statement": "Units of texts that differ only in the order and grouping of their factors are ==, also when the factors are decimals.", "quantifier": "all composed texts", "why_tests_cant": "every text", "anchors": ["pyudunits2/_unit.py:Unit.__eq__", "pyudunits2/_expr/sympy.py:ToSympy"]}
