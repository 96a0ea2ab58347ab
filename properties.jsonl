{"id": "C01", "title": "Reduced expressions are in canonical form", "statement": "Reducing any collection of terms yields a non-empty list with at most one constant term, which comes first and is omitted when it equals 1 and other terms remain; every other term has a distinct base, a unit coefficient and a non-zero exponent; those terms are sorted by descending exponent and alphabetically within equal exponents.", "quantifier": "every finite list (and grouping into lists) of terms with rational coefficients and exponents", "why_tests_cant": "The terms can be any list of any length with any repetition of bases; unit tests fix a handful of strings.", "anchors": ["src/goats/core/symbolic.py:reduce", "src/goats/core/symbolic.py:Term"]}
{"id": "C02", "title": "Reduction preserves algebraic value", "statement": "The reduced expression denotes the same product as the original terms: the total coefficient and the total exponent of every base are unchanged.", "quantifier": "every finite list of terms, every base, and every assignment of non-zero rational values when exponents are integers", "why_tests_cant": "Needs an inductive argument over lists of arbitrary length; a test compares a few literals.", "anchors": ["src/goats/core/symbolic.py:reduce"]}
{"id": "C03", "title": "Equality of expressions is algebraic identity", "statement": "Two expressions built from terms compare equal exactly when they have the same total coefficient and the same total exponent for every base; in particular the order of the terms is irrelevant, and equality is reflexive, symmetric and transitive.", "quantifier": "every pair of term lists, and every permutation of one", "why_tests_cant": "There are factorially many orders of terms; only a proof covers them all.", "anchors": ["src/goats/core/symbolic.py:reduce", "src/goats/core/symbolic.py:Expression.__eq__"]}
{"id": "C04", "title": "Expression arithmetic obeys the group laws of monomials", "statement": "Products of expressions are commutative and associative with the identity expression 1; dividing an expression by itself gives 1; (x*y)/y equals x; powers distribute over products and nested integer powers multiply.", "quantifier": "all expressions (arbitrary term lists) and all integer powers", "why_tests_cant": "Universally quantified algebraic laws.", "anchors": ["src/goats/core/symbolic.py:Expression.__mul__", "src/goats/core/symbolic.py:Expression.__truediv__", "src/goats/core/symbolic.py:Expression.__pow__", "src/goats/core/symbolic.py:reduce"]}
{"id": "C05", "title": "Raising a term to the zeroth power", "statement": "Raising a symbolic term to a power p multiplies its exponent by p and raises its coefficient to p, for every p including 0.", "quantifier": "all terms and all rational powers", "why_tests_cant": "The defect sits at one point of a continuum of inputs (p = 0), and the claim is for all p.", "anchors": ["src/goats/core/symbolic.py:Operand.__init__", "src/goats/core/symbolic.py:Operand.__pow__"]}
{"id": "C06", "title": "Printing and re-parsing an expression is the identity", "statement": "Parsing the string form of any expression yields an expression equal to the original.", "quantifier": "all reduced expressions over all legal bases, coefficients and exponents", "why_tests_cant": "The set of strings is infinite, and the failing ones (denominators with two or more digits) are not in the test suite.", "anchors": ["src/goats/core/symbolic.py:Expression.format", "src/goats/core/symbolic.py:Term.format", "src/goats/core/symbolic.py:Parser", "src/goats/core/symbolic.py:OperandFactory"]}
{"id": "C07", "title": "Bracket matching is exact", "statement": "Searching for the bounds of the first bracketed group finds the first opening separator and its matching closing separator whenever one exists, and reports no bounds when the string has no separator.", "quantifier": "all strings", "why_tests_cant": "Nesting depth and length are unbounded.", "anchors": ["src/goats/core/symbolic.py:OperandFactory.find_bounds"]}
{"id": "C08", "title": "Ambiguous operator sequences are rejected in strict mode and only then", "statement": "When the parser is told to reject ambiguous operator order, a chain of operands fails exactly when two consecutive operators are divide-divide or divide-multiply; in the default mode every chain is accepted and each operator applies to the operand on its right only.", "quantifier": "all chains of operators of any length", "why_tests_cant": "The chain length is unbounded and the check is stateful.", "anchors": ["src/goats/core/symbolic.py:Parser._operator_error", "src/goats/core/symbolic.py:Parser._evaluate"]}
{"id": "C09", "title": "Indexing an expression follows Python sequence rules", "statement": "expr[i] returns the i-th term for 0 <= i < len, the (len+i)-th for -len <= i < 0, and raises IndexError for every other integer.", "quantifier": "all expressions and all integers", "why_tests_cant": "Range of integers is unbounded, and the wrong answers are for out-of-range negative indices.", "anchors": ["src/goats/core/symbolic.py:Expression.__getitem__"]}
{"id": "C10", "title": "Equal terms and expressions have equal hashes", "statement": "If two expressions compare equal then they hash equally, so they are interchangeable as mapping keys.", "quantifier": "all pairs of expressions", "why_tests_cant": "Quantifies over all pairs.", "anchors": ["src/goats/core/symbolic.py:Expression.__hash__", "src/goats/core/symbolic.py:Expression.__eq__", "src/goats/core/symbolic.py:Term.__hash__"]}
{"id": "C11", "title": "Every alias of a key reads the same value", "statement": "In an aliased mapping all aliases of one key return the same value, and a name that is not an alias of any key raises KeyError.", "quantifier": "all mappings built from disjoint alias groups and all names", "why_tests_cant": "Alias groups have arbitrary size and number.", "anchors": ["src/goats/core/aliased.py:Mapping.__getitem__", "src/goats/core/aliased.py:Mapping._resolve"]}
{"id": "C12", "title": "Writing or deleting through one alias affects all aliases of that key and nothing else", "statement": "After m[a] = v every alias of a reads v, all other names read what they did before; after del m[a] no alias of a is present and all other names are unaffected.", "quantifier": "all mappings, names and values", "why_tests_cant": "Frame conditions over unbounded maps.", "anchors": ["src/goats/core/aliased.py:MutableMapping.__setitem__", "src/goats/core/aliased.py:MutableMapping.__delitem__"]}
{"id": "C13", "title": "A mutable aliased mapping refines a plain map with an alias relation under every history", "statement": "After any sequence of set, delete and alias operations by string key the mapping behaves like an abstract map from names to values in which names are partitioned into groups; groups stay pairwise disjoint and non-empty and length is the number of names.", "quantifier": "all finite operation sequences", "why_tests_cant": "Histories are unbounded.", "anchors": ["src/goats/core/aliased.py:MutableMapping"]}
{"id": "C14", "title": "Registering aliases is all-or-nothing", "statement": "When registering several aliases for a key fails because one is taken, the mapping is left unchanged.", "quantifier": "all mappings, keys and alias lists", "why_tests_cant": "A failure in the middle of an arbitrary list.", "anchors": ["src/goats/core/aliased.py:MutableMapping.alias"]}
{"id": "C15", "title": "Alias groups stay pairwise disjoint when groups are merged", "statement": "Adding or merging alias groups into a collection keeps the groups pairwise disjoint and each name in the group of everything it was declared equivalent to.", "quantifier": "all collections and all lists of new groups", "why_tests_cant": "Overlap patterns are unbounded.", "anchors": ["src/goats/core/aliased.py:Groups.merge", "src/goats/core/aliased.py:Groups.add", "src/goats/core/aliased.py:Groups.discard"]}
{"id": "C16", "title": "Canonical names are fixed points of the name map", "statement": "The name map sends each alias to its canonical name, each canonical name to itself, and looking a name up twice is the same as looking it up once.", "quantifier": "all name maps built from disjoint groups", "why_tests_cant": "All maps, all names.", "anchors": ["src/goats/core/aliased.py:NameMap"]}
{"id": "C17", "title": "Strict table lookup returns the unique matching row", "statement": "A strict table request returns the row that satisfies every given pair when there is exactly one, and raises otherwise; a key that is not common to every row is rejected.", "quantifier": "all tables and all requests", "why_tests_cant": "Tables and requests have arbitrary size.", "anchors": ["src/goats/core/iterables.py:Table.__call__", "src/goats/core/iterables.py:Table.find"]}
{"id": "C18", "title": "Non-strict table lookup succeeds whenever a unique row is determined", "statement": "A non-strict request that determines exactly one row returns it and an ambiguous one raises.", "quantifier": "all tables and all requests", "why_tests_cant": "Tables and requests have arbitrary size.", "anchors": ["src/goats/core/iterables.py:Table.__call__"]}
{"id": "C19", "title": "Weighted connections are reciprocal and first-wins", "statement": "After any sequence of additions, whenever the graph knows a weight w from a to b it knows 1/w from b to a, and an existing connection is never overwritten.", "quantifier": "all sequences of added connections", "why_tests_cant": "Unbounded histories.", "anchors": ["src/goats/core/iterables.py:Connections.add_connection", "src/goats/core/iterables.py:Connections.get_weight"]}
{"id": "C20", "title": "Bijections invert exactly", "statement": "Inverting a bijection swaps keys and values, inverting twice restores it, and construction rejects exactly the mappings with repeated values.", "quantifier": "all finite mappings", "why_tests_cant": "All mappings.", "anchors": ["src/goats/core/iterables.py:Bijection"]}
{"id": "C21", "title": "Registering an object never overwrites another", "statement": "Registering objects without explicit names keeps every previously registered object available under its own key.", "quantifier": "all histories of registrations", "why_tests_cant": "Unbounded histories.", "anchors": ["src/goats/core/iterables.py:ObjectRegistry"]}
{"id": "C22", "title": "unique preserves first-occurrence order", "statement": "The unique-ified sequence has no repeats, the same set of elements, and lists elements in order of first occurrence; applying it twice changes nothing.", "quantifier": "all sequences", "why_tests_cant": "Unbounded sequences.", "anchors": ["src/goats/core/iterables.py:unique"]}
{"id": "C23", "title": "unwrap strips redundant nesting and nothing else", "statement": "Unwrapping removes exactly the outer single-element list/tuple layers, terminates on every nesting depth and is idempotent.", "quantifier": "all nested lists/tuples", "why_tests_cant": "Unbounded depth.", "anchors": ["src/goats/core/iterables.py:unwrap"]}
{"id": "C24", "title": "Slices convert to the range Python would use", "statement": "Converting a slice and a length to a range enumerates the same indices as subscripting a sequence of that length with that slice.", "quantifier": "all slices with non-negative bounds and all lengths", "why_tests_cant": "All integers; the failing input is a stop of 0.", "anchors": ["src/goats/core/iterables.py:slice_to_range"]}
{"id": "C25", "title": "Guarded calls return the substitute for every guarded exception", "statement": "A guard that declares a substitute for an exception type returns that substitute when the call raises that type or a subtype, and lets every other exception through.", "quantifier": "all exception hierarchies, registrations and calls", "why_tests_cant": "Quantifies over class hierarchies.", "anchors": ["src/goats/core/iterables.py:Guard"]}
{"id": "C26", "title": "find_nearest returns the closest element", "statement": "Without a bound the result is an index in range whose element has the least absolute distance to the target, and the first such index.", "quantifier": "all non-empty arrays and all targets", "why_tests_cant": "Unbounded arrays, including unsorted and repeated values.", "anchors": ["src/goats/core/numerical.py:find_nearest"]}
{"id": "C27", "title": "Bounded nearest search respects the bound on sorted arrays", "statement": "With a lower bound the element returned is at least the target, with an upper bound at most the target, whenever the sorted array contains such an element, and it is the closest such element; otherwise the result is the corresponding end of the array.", "quantifier": "all sorted arrays and all targets", "why_tests_cant": "Unbounded arrays.", "anchors": ["src/goats/core/numerical.py:find_nearest"]}
{"id": "C28", "title": "Bounding indices bracket the target", "statement": "For a sorted array the bounding indices enclose the target: the lower element is the greatest not above it and the upper the least not below it, with the array ends used outside the range.", "quantifier": "all sorted arrays and all targets", "why_tests_cant": "Unbounded arrays.", "anchors": ["src/goats/core/numerical.py:find_1d_indices", "src/goats/core/numerical.py:get_bounding_indices"]}
{"id": "C29", "title": "Interpolation is exact at reference points and stays between its neighbours", "statement": "Interpolating at a reference coordinate returns the tabulated value; between two adjacent coordinates it returns a value between the two tabulated values lying on the chord.", "quantifier": "all strictly increasing coordinate arrays, value arrays and targets in range", "why_tests_cant": "Continuum of targets, arrays of any length.", "anchors": ["src/goats/core/interpolation.py:_apply_interp1d", "src/goats/core/interpolation.py:Restriction"]}
{"id": "C30", "title": "Known words get no suggestions and suggestions are known words", "statement": "Checking a known word returns nothing; every suggestion for an unknown word is a known word at the least edit distance (one, else two) at which any known word exists.", "quantifier": "all dictionaries and all words", "why_tests_cant": "Infinite string space; the missed edits are insertions at the end of the word.", "anchors": ["src/goats/core/spelling.py:SpellChecker"]}
{"id": "C31", "title": "Unit ratios form a multiplicative cocycle", "statement": "For named units of the same base unit ratio(u,u)=1, ratio(u,v)*ratio(v,u)=1 and ratio(u,v)*ratio(v,w)=ratio(u,w); units with different base units are rejected.", "quantifier": "all named units with positive scales", "why_tests_cant": "All triples.", "anchors": ["src/goats/core/metric.py:ratio", "src/goats/core/metric.py:NamedUnit.__floordiv__"]}
{"id": "C32", "title": "Conversion factors are sound and reciprocal", "statement": "Any factor found by the unit-conversion search is the product of declared factors along a path of declared conversions and metric rescalings; if the declared table is consistent (derivable from one scale per unit) then the factor equals the quotient of the scales, so converting there and back multiplies by 1.", "quantifier": "all finite conversion tables and all pairs of units", "why_tests_cant": "Path length and table size are unbounded.", "anchors": ["src/goats/core/metric.py:Conversion", "src/goats/core/iterables.py:Connections"]}
{"id": "C33", "title": "The conversion search terminates", "statement": "Searching for a conversion between any two units in any finite table terminates, visiting each unit at most once.", "quantifier": "all finite conversion tables, cyclic or not", "why_tests_cant": "Cyclic graphs of any size.", "anchors": ["src/goats/core/metric.py:Conversion._search", "src/goats/core/metric.py:Conversion._complex_conversion"]}
{"id": "C34", "title": "Converting a quantity changes the numbers but not the measured amount", "statement": "q[u] multiplies the values by the conversion factor, so value times unit size is unchanged; converting back restores the values; converting via an intermediate unit equals converting directly.", "quantifier": "all quantities, all chains of consistent units", "why_tests_cant": "All chains of conversions.", "anchors": ["src/goats/core/measurable.py:Quantity.__getitem__", "src/goats/core/measurable.py:Quantity.apply_unit", "src/goats/core/variable.py:Quantity._update_unit"]}
{"id": "C35", "title": "Each unit symbol denotes the unit it was defined with", "statement": "Looking up a symbol built from a prefix and a unit finds that prefix and that unit.", "quantifier": "all pairs of a metric prefix and a unit in the tables", "why_tests_cant": "The tables generate over a thousand symbols and collisions between them are not tested.", "anchors": ["src/goats/core/metric.py:build_unit_aliases", "src/goats/core/metric.py:named_units", "src/goats/core/metric.py:identify"]}
{"id": "C36", "title": "Operand-type support: suppression wins", "statement": "An operation supports a tuple of operand types exactly when it has as many types as the supported rules, no suppressed rule matches it, and a supported rule matches it or it mentions the owner type.", "quantifier": "all rule sets, class hierarchies and operand types", "why_tests_cant": "Quantifies over hierarchies and rule sets.", "anchors": ["src/goats/core/metadata.py:Operation.supports", "src/goats/core/metadata.py:Operation.suppress", "src/goats/core/metadata.py:Operation.support"]}
{"id": "C37", "title": "Arithmetic on quantities is dimensionally sound", "statement": "The product, quotient and power of quantities carry the unit for which value times unit size multiplies, divides and is raised; sums and differences are only allowed between equal units and keep the unit.", "quantifier": "all quantities, all units given by a size for every base", "why_tests_cant": "All values and unit expressions.", "anchors": ["src/goats/core/measurable.py:Quantified.implement", "src/goats/core/metadata.py:Unit", "src/goats/core/metadata.py:Operator.__call__"]}
{"id": "C38", "title": "Merging dimensions is an associative ordered union", "statement": "The dimensions of a product are the dimensions of the left operand followed by the new ones of the right operand, without repeats; merging is associative and idempotent.", "quantifier": "all dimension tuples", "why_tests_cant": "Unbounded tuples.", "anchors": ["src/goats/core/metadata.py:Dimensions.merge"]}
{"id": "C39", "title": "Equality of dimensions distinguishes axis order", "statement": "Two dimension tuples compare equal only if they name the same axes in the same order, and equality is symmetric.", "quantifier": "all dimension tuples", "why_tests_cant": "All pairs of tuples.", "anchors": ["src/goats/core/metadata.py:Dimensions.__eq__"]}
{"id": "C40", "title": "Names of composite quantities spell the operation in operand order", "statement": "The name of a op b contains exactly the strings \"x op y\" for x a name of a and y a name of b, in that order, also for reflected operators.", "quantifier": "all sets of names and all operators", "why_tests_cant": "All alias sets.", "anchors": ["src/goats/core/metadata.py:Name"]}
{"id": "C41", "title": "Measuring keeps every number in order and one unit", "statement": "Measuring numbers optionally followed by a unit, or nested iterables of such, returns all the numbers in order together with the common unit (1 if none), and input with conflicting units is rejected.", "quantifier": "all nested measurable inputs", "why_tests_cant": "Unbounded nesting.", "anchors": ["src/goats/core/measurable.py:measure", "src/goats/core/measurable.py:parse_measurable"]}
{"id": "C42", "title": "A failed in-place operation leaves the quantity unchanged", "statement": "If an in-place arithmetic operation raises, the quantity still has its former values and unit.", "quantifier": "all quantities and operands", "why_tests_cant": "Failure atomicity over all inputs.", "anchors": ["src/goats/core/measurable.py:Quantified.implement"]}
{"id": "C43", "title": "Lazy loading and caching of arrays is invisible", "statement": "Whatever sequence of full reads, partial reads and unit changes was performed before, reading an index of an array quantity gives the scaled element of the underlying data.", "quantifier": "all histories of reads", "why_tests_cant": "Unbounded histories.", "anchors": ["src/goats/core/variable.py:Array._load_array", "src/goats/core/variable.py:Array._read_array", "src/goats/core/variable.py:Array._get_array"]}
{"id": "C44", "title": "Copies of an array quantity convert units like the original", "statement": "A quantity constructed from an existing quantity has the same values and unit, and converting the copy gives the same values as converting the original.", "quantifier": "all quantities and all units", "why_tests_cant": "All histories of copies and conversions.", "anchors": ["src/goats/core/variable.py:Array.__init__", "src/goats/core/variable.py:Quantity._update_unit", "src/goats/core/physical.py:Array.apply_unit"]}
{"id": "C45", "title": "Products of arrays align axes by name", "statement": "Element (i over the merged dimensions) of a product of two variable quantities is the product of the elements of each operand at the indices of its own dimensions.", "quantifier": "all arrays of any rank and shape with consistent axis sizes", "why_tests_cant": "Ranks and shapes unbounded.", "anchors": ["src/goats/core/variable.py:Quantity._ufunc_hook"]}
{"id": "C46", "title": "An ellipsis expands to the missing axes", "statement": "Subscripting with one ellipsis expands it to full slices so that exactly ndim indices result and the explicit indices before and after it keep their place.", "quantifier": "all index tuples with at most one ellipsis and all ranks", "why_tests_cant": "Unbounded ranks.", "anchors": ["src/goats/core/variable.py:Array._expand_ellipsis", "src/goats/core/physical.py:Array._expand_ellipsis"]}
{"id": "C47", "title": "Observations depend only on the current constraints", "statement": "Observing a quantity with given constraints gives the same result whatever observations were made before with the same context.", "quantifier": "all histories of observations", "why_tests_cant": "Unbounded histories with caches.", "anchors": ["src/goats/core/observing.py:Observable.observe", "src/goats/core/observing.py:Context.constrain", "src/goats/eprem/__init__.py:Context.get_index", "src/goats/eprem/__init__.py:Context.get_value"]}
{"id": "C48", "title": "User constraints override defaults", "statement": "After any sequence of constrain calls the effective constraint on a name is the latest user value since the last non-appending call, else the default.", "quantifier": "all sequences of constrain calls", "why_tests_cant": "Unbounded histories.", "anchors": ["src/goats/core/observing.py:Context.constrain", "src/goats/core/observing.py:Context.constraints"]}
{"id": "C49", "title": "Available names follow the constraints", "statement": "The collection of available names always includes every currently constrained name.", "quantifier": "all sequences of constrain calls", "why_tests_cant": "Staleness only shows after particular histories.", "anchors": ["src/goats/core/observing.py:Context.available", "src/goats/core/observing.py:Context.keys"]}
{"id": "C50", "title": "Configuration files round-trip", "statement": "Parsing a file of lines key=value (with comments and blank lines interspersed) gives exactly those pairs, last assignment winning.", "quantifier": "all files", "why_tests_cant": "Unbounded text.", "anchors": ["src/goats/eprem/runtime.py:ConfigFile._parse", "src/goats/core/iotools.py:strip_inline_comments"]}
{"id": "C51", "title": "Blanks around the equals sign are insignificant", "statement": "key = value defines the parameter named key.", "quantifier": "all files", "why_tests_cant": "Infinite inputs.", "anchors": ["src/goats/eprem/runtime.py:ConfigFile._parse"]}
{"id": "C52", "title": "Parameter evaluation terminates with the arithmetic value of its definition", "statement": "Evaluating a parameter whose definition refers to other parameters acyclically terminates and gives the value of the defining arithmetic expression.", "quantifier": "all acyclic definition environments", "why_tests_cant": "Unbounded reference depth.", "anchors": ["src/goats/eprem/runtime.py:Runtime._evaluate", "src/goats/eprem/runtime.py:Runtime._resolve", "src/goats/eprem/runtime.py:Runtime._compute_sum"]}
{"id": "C53", "title": "Axis indexing covers the axis and stays in range", "statement": "Indexing an axis with no arguments selects every index; slices select what Python slicing selects; explicit indices are accepted exactly when all are in range.", "quantifier": "all axis sizes and index arguments", "why_tests_cant": "All integers and lengths.", "anchors": ["src/goats/core/axis.py:Indexer", "src/goats/core/index.py:Data"]}
{"id": "C54", "title": "Functions receive each dependency under its own parameter name", "statement": "A computed quantity calls its method with every dependency bound to the parameter of that name.", "quantifier": "all methods (parameter lists) and dependency kinds", "why_tests_cant": "All parameter orders.", "anchors": ["src/goats/core/computed.py:Method.parse"]}
{"id": "C55", "title": "Parallel and perpendicular velocity decompose the speed", "statement": "v_para^2 + v_perp^2 = |V|^2 and v_perp is real, for every velocity and non-zero magnetic field.", "quantifier": "all real vectors", "why_tests_cant": "Continuum.", "anchors": ["src/goats/core/computed.py:v_para", "src/goats/core/computed.py:v_perp", "src/goats/core/computed.py:v_mag", "src/goats/core/computed.py:b_mag"]}
{"id": "C56", "title": "The flow angle is the angle between the fields", "statement": "The cosine of flow_angle is the normalised scalar product of the magnetic field and the velocity.", "quantifier": "all non-zero real vectors", "why_tests_cant": "Continuum.", "anchors": ["src/goats/core/computed.py:flow_angle", "src/goats/core/computed.py:v_para"]}
{"id": "C57", "title": "Species symbols identify the element of the given mass", "statement": "For every mass and charge the symbol returned is an element whose rounded mass is the rounded input, with one sign per unit of charge, and unknown masses are rejected; distinct elements are distinguished.", "quantifier": "all masses and charges", "why_tests_cant": "All numbers.", "anchors": ["src/goats/core/fundamental.py:elements", "src/goats/core/fundamental.py:get_mass_indices"]}
{"id": "C58", "title": "Dimensions of a computed quantity", "statement": "The dimensions of a computed quantity are those of its dependencies, without the removed and with the added ones, in dataset order followed by the added.", "quantifier": "all acyclic function registries", "why_tests_cant": "Unbounded dependency depth.", "anchors": ["src/goats/eprem/__init__.py:Functions._gather_dimensions", "src/goats/eprem/__init__.py:Axes.resolve"]}
{"id": "C59", "title": "Standardised unit strings group the denominator once", "statement": "Standardising a unit string containing a slash puts everything after the first slash in one bracketed denominator and leaves other strings alone.", "quantifier": "all strings", "why_tests_cant": "Infinite strings.", "anchors": ["src/goats/eprem/__init__.py:standardize"]}
{"id": "C60", "title": "An observer is observable exactly for names it can compose", "statement": "An observer accepts a name exactly when it is a known quantity or an expression all of whose bases are known.", "quantifier": "all names and expressions", "why_tests_cant": "Infinite strings.", "anchors": ["src/goats/core/observer.py:Interface.observes"]}
{"id": "C61", "title": "Parsing terminates on every string", "statement": "Building a term or an expression from any string, well-formed or not, either returns or raises; it never recurses for ever.", "quantifier": "all strings, both modes", "why_tests_cant": "Infinitely many strings, including unbalanced and nested ones.", "anchors": ["src/goats/core/symbolic.py:Parser.parse", "src/goats/core/symbolic.py:OperandFactory.create"]}
{"id": "C62", "title": "Copies of an aliased mapping are indistinguishable from the original", "statement": "Copying a mapping, or building a mapping from a mapping, keeps every value and every alias.", "quantifier": "all consistent mappings", "why_tests_cant": "All mappings, all names.", "anchors": ["src/goats/core/aliased.py:Mapping.copy", "src/goats/core/aliased.py:Mapping.__init__"]}
{"id": "C63", "title": "Merging two aliased mappings reads the right operand first", "statement": "In m | n every name reads its value in n if n has it and otherwise its value in m, whatever the overlap of the alias groups.", "quantifier": "all pairs of consistent mappings and all names", "why_tests_cant": "Overlap patterns are unbounded.", "anchors": ["src/goats/core/aliased.py:Mapping.__or__"]}
{"id": "C64", "title": "Aliases given inside the values name their entry", "statement": "A mapping built from entries that list their own aliases returns the entry, without the alias list, for its key and each listed alias, and no other name is present.", "quantifier": "all lists of entries with disjoint names", "why_tests_cant": "All entries, all names.", "anchors": ["src/goats/core/aliased.py:Mapping.__init__", "src/goats/core/aliased.py:_build_from_key"]}
{"id": "C65", "title": "Squeezing replaces singleton interior mappings by their value", "statement": "squeeze replaces every interior mapping by its only value when all are singletons and otherwise changes nothing; with strict=True it raises exactly when the keys differ or the mapping is empty.", "quantifier": "all consistent mappings of mappings", "why_tests_cant": "All mappings.", "anchors": ["src/goats/core/aliased.py:Mapping.squeeze"]}
{"id": "C66", "title": "Inverting a name map lists exactly the aliases of each name", "statement": "The inverse of a name map sends each canonical name to the set of names that the map sends to it, and contains no other name.", "quantifier": "all name maps", "why_tests_cant": "All maps, all names.", "anchors": ["src/goats/core/aliased.py:NameMap.invert"]}
{"id": "C67", "title": "Aliases taken from a collection of groups", "statement": "A mapping built with a separate collection of disjoint alias groups returns the value of a key for the key and every member of its group.", "quantifier": "all mappings and all collections with at most one key per group", "why_tests_cant": "All collections.", "anchors": ["src/goats/core/aliased.py:Mapping.__init__", "src/goats/core/aliased.py:Groups.find"]}
{"id": "C68", "title": "Assigning through a tuple of names keeps every name in one group", "statement": "After m[(a, b, ...)] = v every name of the tuple reads v, every name belongs to one group, and deleting a name removes it.", "quantifier": "all mappings and tuples", "why_tests_cant": "All overlaps.", "anchors": ["src/goats/core/aliased.py:MutableMapping.__setitem__"]}
{"id": "C69", "title": "Abbreviated display shows at most the requested number of values", "statement": "Showing at most n values shows all of them when there are at most n, and otherwise n of them: the first n-1 and the last.", "quantifier": "all n and all sequences", "why_tests_cant": "All n, all lengths.", "anchors": ["src/goats/core/iterables.py:show_at_most"]}
{"id": "C70", "title": "Transposing a table twice restores it", "statement": "Transposing a non-empty rectangular list of lists exchanges rows and columns; transposing twice gives the original.", "quantifier": "all rectangular lists of lists", "why_tests_cant": "All shapes.", "anchors": ["src/goats/core/iterables.py:transpose_list"]}
{"id": "C71", "title": "Distribution pairs every left with every right value", "statement": "Distributing two values yields exactly the pairs of their members, treating a scalar as its only member, and raises exactly when both are scalars.", "quantifier": "all pairs of values", "why_tests_cant": "All values.", "anchors": ["src/goats/core/iterables.py:distribute"]}
{"id": "C72", "title": "Cached instances: one object per key", "statement": "In any history of instance requests two requests return the same object iff their keys are equal.", "quantifier": "all histories of requests", "why_tests_cant": "All histories.", "anchors": ["src/goats/core/iterables.py:InstanceSet"]}
{"id": "C73", "title": "Table search finds exactly the rows with a value", "statement": "Searching a table for a value returns the rows that have it, in order; with unique it returns the row iff there is exactly one; a value in no row is an error.", "quantifier": "all tables and values", "why_tests_cant": "All tables.", "anchors": ["src/goats/core/iterables.py:Table.find"]}
{"id": "C74", "title": "Adjacencies agree with weights", "statement": "The adjacencies of a node list a neighbour with a weight iff the weight from the node to that neighbour is that weight.", "quantifier": "all sequences of added connections and all nodes", "why_tests_cant": "All graphs.", "anchors": ["src/goats/core/iterables.py:Connections.get_adjacencies"]}
{"id": "C75", "title": "Restricting a coordinate keeps exactly its bounding elements", "statement": "Restricting a strictly increasing coordinate to a target keeps the two neighbours of a target that lies between coordinates, and only the coordinate itself when the target equals one; the restriction of a sorted coordinate is never empty.", "quantifier": "all coordinate arrays and targets", "why_tests_cant": "Arrays of any length and a continuum of targets; repeated coordinates are easy to miss.", "anchors": ["src/goats/core/interpolation.py:restrict_coordinate", "src/goats/core/numerical.py:get_bounding_indices"]}
{"id": "C76", "title": "Targets outside the reference coordinates", "statement": "Interpolating along a given axis at a target outside the reference returns the value at the nearest end; without an axis it raises ValueError.", "quantifier": "all arrays, references and targets outside the reference", "why_tests_cant": "Continuum of targets, arrays of any length.", "anchors": ["src/goats/core/interpolation.py:_apply_interp1d"]}
{"id": "C77", "title": "Interpolation over a two-dimensional coordinate is row-wise", "statement": "Interpolating over a two-dimensional coordinate gives, for every row, what interpolating that row alone gives.", "quantifier": "all two-dimensional coordinates with increasing rows, all values and targets in range of every row", "why_tests_cant": "Any number of rows and columns, a continuum of targets; the failing targets are the coordinates themselves.", "anchors": ["src/goats/core/interpolation.py:_apply_interp1d", "src/goats/core/interpolation.py:restrict_coordinate"]}
{"id": "C78", "title": "find_nearest locates elements of multi-dimensional arrays", "statement": "For an array of any shape the index returned is within the shape and addresses the first nearest element in C order.", "quantifier": "all shapes, arrays and targets", "why_tests_cant": "Unbounded dimension counts and sizes.", "anchors": ["src/goats/core/numerical.py:find_nearest"]}
{"id": "C79", "title": "Interpolation along an axis other than the first", "statement": "A quantity can be interpolated to any target within the range of a one-dimensional coordinate whatever axis that coordinate has in the quantity.", "quantifier": "all coordinates, arrays and targets in range", "why_tests_cant": "Which targets fail depends on membership in a continuum.", "anchors": ["src/goats/core/interpolation.py:_apply_interp1d", "src/goats/eprem/__init__.py:Context._compute_interpolants"]}
{"id": "C80", "title": "Spell-check outcomes by mode", "statement": "Without a mode the check raises exactly when the word is unknown and resembles a known word, naming the suggestions; truth mode is true exactly for known words; an unknown mode raises ValueError.", "quantifier": "all dictionaries, words and modes", "why_tests_cant": "Infinite string space: the words that resemble nothing are almost all of it.", "anchors": ["src/goats/core/spelling.py:SpellChecker.check"]}
{"id": "C81", "title": "The known subset of candidates", "statement": "known(candidates) is the set of candidates in the dictionary.", "quantifier": "all dictionaries and candidate lists", "why_tests_cant": "Unbounded lists of arbitrary strings.", "anchors": ["src/goats/core/spelling.py:SpellChecker.known"]}
{"id": "C82", "title": "Declared conversions are found", "statement": "Whenever two unit names are joined by a chain of declared conversions, the conversion between them succeeds, whatever the order in which the conversions were declared and whatever cycles the declarations contain. For the module's own declarations the factor is the quotient of the sizes of the units.", "quantifier": "all tables of declared conversions with nonzero factors, all pairs of joined names", "why_tests_cant": "the set of joined pairs grows with the table; tests convert a few of them", "anchors": ["src/goats/core/metric.py:Conversion", "src/goats/core/metric.py:conversion", "src/goats/core/iterables.py:Connections"]}
{"id": "C83", "title": "A unit name means the same in every history", "statement": "The unit a name denotes does not depend on which units the program has created before.", "quantifier": "all sequences of earlier unit look-ups and all names", "why_tests_cant": "an instance cache depends on the history of the process; a unit test sees one history", "anchors": ["src/goats/core/metric.py:NamedUnit.__new__"]}
{"id": "C84", "title": "Equal units are interchangeable", "statement": "Comparing a unit with itself gives true, comparing two units gives a truth value rather than an exception, and two units that compare equal have the same dimension and the same size.", "quantifier": "all pairs of unit expressions", "why_tests_cant": "the claim ranges over all pairs of unit expressions", "anchors": ["src/goats/core/metric.py:Unit.__eq__"]}
{"id": "C85", "title": "A conversion that does not exist is reported as None", "statement": "The non-strict conversion returns None, rather than raising an exception, exactly when the two strings have no conversion.", "quantifier": "all pairs of strings", "why_tests_cant": "the strings are arbitrary", "anchors": ["src/goats/core/metric.py:conversion"]}
{"id": "C86", "title": "Decomposition does not depend on set order", "statement": "The decomposition of a named unit into base units is the same for every iteration order of the set of metric systems, so that it does not vary from one process to another.", "quantifier": "all named units, both orders of the set of systems", "why_tests_cant": "set order varies with the process's hash seed; a test run sees one seed", "anchors": ["src/goats/core/metric.py:NamedUnit.decompose", "src/goats/core/metric.py:SYSTEMS"]}
{"id": "C87", "title": "Every named unit has a dimension", "statement": "Asking any unit the module knows for its dimensions succeeds.", "quantifier": "every prefix and every base unit of the module's tables", "why_tests_cant": "there are over a thousand names; tests ask for a few", "anchors": ["src/goats/core/metric.py:NamedUnit.dimensions", "src/goats/core/metric.py:_QUANTITIES"]}
{"id": "C88", "title": "A copy of an operation supports the same operand types", "statement": "The (documented as deep) copy of an operation supports exactly the operand types that the original supports.", "quantifier": "all histories of support and suppress calls and all operand types", "why_tests_cant": "Unbounded histories.", "anchors": ["src/goats/core/metadata.py:Operation.copy"]}
{"id": "C89", "title": "Metadata checks accept exactly consistent operands", "statement": "Checking metadata raises ValueError iff two operands that have some checked attribute have different values of it; asking whether operands agree returns the same answer rather than raising.", "quantifier": "all operands, with any subset of attributes and any values", "why_tests_cant": "All subsets of attributes over any number of operands.", "anchors": ["src/goats/core/metadata.py:consistent", "src/goats/core/metadata.py:OperatorFactory.check", "src/goats/core/metadata.py:Operands.agree"]}
{"id": "C90", "title": "Equality of operand sequences is equality up to order", "statement": "Two operand sequences compare equal iff one is a rearrangement of the other, so equality is symmetric.", "quantifier": "all pairs of operand sequences", "why_tests_cant": "Unbounded sequences with repeats.", "anchors": ["src/goats/core/metadata.py:Operands.__eq__"]}
{"id": "C91", "title": "Sums keep dimensions and need equal axes", "statement": "A sum or difference of operands with distinct axes has the dimensions of the left operand, and is rejected unless both have the same axes.", "quantifier": "all pairs of dimension tuples without repeats", "why_tests_cant": "All pairs of tuples.", "anchors": ["src/goats/core/metadata.py:identity", "src/goats/core/metadata.py:Dimensions.__add__"]}
{"id": "C92", "title": "Names tell results apart", "statement": "Results of different computations on named quantities get different names.", "quantifier": "all expressions over named quantities", "why_tests_cant": "Ranges over all expression trees.", "anchors": ["src/goats/core/metadata.py:Name"]}
{"id": "C93", "title": "An object that is called measurable can be measured", "statement": "If ismeasurable(x) is true then measure(x) succeeds and keeps every number.", "quantifier": "all objects", "why_tests_cant": "Unbounded nesting.", "anchors": ["src/goats/core/measurable.py:ismeasurable", "src/goats/core/measurable.py:measure"]}
{"id": "C94", "title": "Indexing a measurement follows the rules of sequences", "statement": "m[i] with -n <= i < n is the value at that position with the unit of the measurement; any other integer raises IndexError.", "quantifier": "all measurements and integers", "why_tests_cant": "All lengths and indices.", "anchors": ["src/goats/core/measurable.py:Measurement.__getitem__"]}
{"id": "C95", "title": "Quantities are only compared in the same unit", "statement": "An ordering comparison of two quantities raises ValueError unless their units are equal, and otherwise compares the values; two quantities are equal exactly if the values and the units are.", "quantifier": "all pairs of quantities", "why_tests_cant": "All values and units.", "anchors": ["src/goats/core/measurable.py:Quantified.implement", "src/goats/core/measurable.py:Quantified.__eq__"]}
{"id": "C96", "title": "Arithmetic on quantities does not depend on units created before", "statement": "Whatever units a program has created, the results of arithmetic on quantities are the same.", "quantifier": "all histories of creating units", "why_tests_cant": "Unbounded histories.", "anchors": ["src/goats/core/metric.py:_UnitMeta.__call__", "src/goats/core/metadata.py:Unit"]}
{"id": "C97", "title": "Subscripting an array quantity by positions and ranges keeps every axis", "statement": "Subscripting an array-like quantity with one position or range per axis gives a quantity with the same axes and unit, whose elements are those at the selected positions; a position leaves an axis of size 1.", "quantifier": "all arrays of any rank and shape and all tuples of positions and ranges", "why_tests_cant": "Ranks, shapes and bounds are unbounded.", "anchors": ["src/goats/core/variable.py:Array.__getitem__", "src/goats/core/variable.py:Array._get_axis_size", "src/goats/core/variable.py:Quantity.__getitem__"]}
{"id": "C98", "title": "Subscripting an array quantity by lists selects their positions along each axis", "statement": "Subscripting with lists of positions for some axes and ranges for the others gives every combination of the selected positions.", "quantifier": "all arrays of any rank and shape and all tuples of lists and ranges", "why_tests_cant": "Ranks, shapes and lists are unbounded.", "anchors": ["src/goats/core/variable.py:Array._normalize_indices", "src/goats/core/variable.py:Array.__getitem__"]}
{"id": "C99", "title": "Sums of array quantities add elements at equal coordinates", "statement": "The sum of two array-like quantities with the same axes has at each coordinate the sum of the elements there; quantities with different axes are refused.", "quantifier": "all arrays of any rank and shape, axes in any order", "why_tests_cant": "Ranks and shapes are unbounded.", "anchors": ["src/goats/core/variable.py:Array.__array_ufunc__", "src/goats/core/variable.py:Quantity._ufunc_hook", "src/goats/core/metadata.py:Dimensions.__eq__"]}
{"id": "C100", "title": "Removing singular axes keeps the values", "statement": "numpy.squeeze of an array-like quantity removes exactly the axes of size 1 and keeps the names of the others, the unit and every element.", "quantifier": "all arrays of any rank and shape", "why_tests_cant": "Ranks and shapes are unbounded.", "anchors": ["src/goats/core/variable.py:_array_squeeze"]}
{"id": "C101", "title": "Averages along an axis", "statement": "numpy.mean of an array-like quantity along an axis removes that axis and its name and gives the averages of the elements along it, in the same unit.", "quantifier": "all arrays of any rank and shape and every axis that numpy accepts", "why_tests_cant": "Ranks, shapes and axes are unbounded.", "anchors": ["src/goats/core/variable.py:_array_mean"]}
{"id": "C102", "title": "Products of arrays of inconsistent sizes are refused", "statement": "The product of two array-like quantities whose sizes along a shared axis differ raises an exception.", "quantifier": "all pairs of arrays with a shared axis of different sizes", "why_tests_cant": "Shapes are unbounded.", "anchors": ["src/goats/core/variable.py:Quantity._ufunc_hook"]}
{"id": "C103", "title": "Operations that metadata do not support fail uniformly", "statement": "If an operation is not defined on the values of a metadata attribute, a unary operation keeps the value, an operation on several operands that all have the attribute raises MetadataError, and otherwise the TypeError is raised again; other results and exceptions are passed on.", "quantifier": "all operations, operands and attributes", "why_tests_cant": "Any method and any operands.", "anchors": ["src/goats/core/metadata.py:Operator.__call__"]}
{"id": "C104", "title": "An observation reports the constants it depends on", "statement": "The assumptions of an observation list every constant of the run that takes part in computing the observed values, with the value that was used.", "quantifier": "all registries of computed quantities, expressions and constraints", "why_tests_cant": "Dependencies nest to any depth.", "anchors": ["src/goats/eprem/__init__.py:Context.observe", "src/goats/eprem/__init__.py:Context.get_observable", "src/goats/core/observing.py:Parameters.merge"]}
{"id": "C105", "title": "Interpolated axes are not subscripted again", "statement": "When an observation interpolates along some axes, the result keeps all interpolated values along those axes and is subscripted along the remaining axes only.", "quantifier": "all quantities and all sets of interpolated axes", "why_tests_cant": "The failing case (all axes interpolated) is one point of a product of cases.", "anchors": ["src/goats/eprem/__init__.py:Context.interpolate", "src/goats/eprem/__init__.py:Context._subscript"]}
{"id": "C106", "title": "Constraints that take no part in an observation do not affect it", "statement": "Two sets of constraints that agree on the axes, the radius and the parameters that take part in computing a quantity give the same observation of it.", "quantifier": "all pairs of constraints, all registries and expressions", "why_tests_cant": "A frame condition over unbounded constraints.", "anchors": ["src/goats/eprem/__init__.py:Context.observe", "src/goats/eprem/__init__.py:Context.get_value", "src/goats/eprem/__init__.py:Context.get_index"]}
{"id": "C107", "title": "Constraints may be given under any alias", "statement": "Constraining an axis, a parameter or the radius under one of its aliases has the same effect as constraining it under any other.", "quantifier": "all aliases, histories and quantities", "why_tests_cant": "Needs every alias of every name in every state.", "anchors": ["src/goats/eprem/__init__.py:Context.compute_index", "src/goats/eprem/__init__.py:Context.compute_value", "src/goats/eprem/__init__.py:Context._compute_interpolants"]}
{"id": "C108", "title": "Comparing configuration files", "statement": "Comparing two configuration files lists every parameter of either file exactly once, in alphabetical order, with its value in each file or nothing where it is absent.", "quantifier": "all pairs of files", "why_tests_cant": "Unbounded files.", "anchors": ["src/goats/eprem/runtime.py:ConfigFile.compare", "src/goats/eprem/runtime.py:ConfigFile.diff"]}
{"id": "C109", "title": "Compile-time constants have the value of their definition", "statement": "A constant defined by a numeral or as a product or quotient of constants evaluates to the value of that product.", "quantifier": "all acyclic sets of definitions", "why_tests_cant": "Unbounded reference depth and length of products.", "anchors": ["src/goats/eprem/runtime.py:BaseTypesH._compute", "src/goats/eprem/runtime.py:BaseTypesH._evaluate"]}
{"id": "C110", "title": "Only non-empty values of known parameters matter", "statement": "Adding or removing keys that are not parameters, or parameters with empty values, in the configuration file never changes the value of any parameter.", "quantifier": "all files, definitions and parameters", "why_tests_cant": "Frame property over unbounded files.", "anchors": ["src/goats/eprem/runtime.py:Runtime._get_argument"]}
{"id": "C111", "title": "Cyclic definitions never give a value", "statement": "Evaluating a parameter whose definition leads back to itself through other parameters raises RecursionError, at every recursion limit.", "quantifier": "all cycles of any length and all recursion limits", "why_tests_cant": "Unbounded cycles.", "anchors": ["src/goats/eprem/runtime.py:Runtime._evaluate"]}
{"id": "C112", "title": "The parameter interface uses the comment signs it is given", "statement": "The values in an interface to the parameters are those of the configuration file read with the given comment signs.", "quantifier": "all files and comment signs", "why_tests_cant": "Unbounded text.", "anchors": ["src/goats/eprem/runtime.py:Interface.__init__", "src/goats/eprem/runtime.py:Interface.__getitem__"]}
{"id": "C113", "title": "A parameter that cannot be evaluated affects only itself", "statement": "If the definition of one parameter cannot be evaluated, the other parameters are still available.", "quantifier": "all sets of definitions", "why_tests_cant": "Quantifies over all other parameters.", "anchors": ["src/goats/eprem/runtime.py:Interface.__init__"]}
{"id": "C114", "title": "Indexing an axis by value selects the nearest coordinate", "statement": "Numbers given to a coordinate axis, in any consistent unit, select for each the position of the nearest coordinate (the first of equals), in order.", "quantifier": "all coordinate arrays, units and numbers", "why_tests_cant": "All numbers and all arrays, sorted or not.", "anchors": ["src/goats/eprem/__init__.py:Axes._build_coordinate", "src/goats/core/numerical.py:find_nearest"]}
{"id": "C115", "title": "Axis values in an inconsistent unit are rejected", "statement": "Indexing an axis by values whose unit is inconsistent with that of the axis raises an error, as does changing the unit of the axis to an inconsistent one.", "quantifier": "all axes, values and units", "why_tests_cant": "All units.", "anchors": ["src/goats/eprem/__init__.py:Axes._build_coordinate", "src/goats/core/axis.py:Quantity.__getitem__"]}
{"id": "C116", "title": "Indices given to the axes of a dataset are within the axis", "statement": "Integer indices outside an axis of a dataset are rejected; every other selection gives positions within the axis.", "quantifier": "all axes and integers", "why_tests_cant": "All integers.", "anchors": ["src/goats/eprem/__init__.py:Axes.shell", "src/goats/eprem/__init__.py:Axes.species", "src/goats/eprem/__init__.py:Axes._build_coordinate"]}
{"id": "C117", "title": "The values of an index are the axis values at its points", "statement": "The values that come with an index are, one for one, the values of the axis at the points of the index.", "quantifier": "all axes and selections", "why_tests_cant": "All selections.", "anchors": ["src/goats/core/index.py:Data", "src/goats/eprem/__init__.py:Axes._build_coordinate", "src/goats/eprem/__init__.py:Axes.species"]}
{"id": "C118", "title": "An empty selection selects nothing", "statement": "Indexing an axis with an empty range gives an empty index.", "quantifier": "all axes and empty ranges", "why_tests_cant": "All axes.", "anchors": ["src/goats/core/axis.py:Indexer.normalize", "src/goats/eprem/__init__.py:Axes._build_coordinate", "src/goats/core/index.py:Quantity"]}
{"id": "C119", "title": "Changing the unit of an axis converts its values and keeps its points", "statement": "In any consistent unit, an axis selects the same points for the same physical values, and its reference values are converted by the conversion factor.", "quantifier": "all axes, units with coherent factors and values", "why_tests_cant": "All pairs of units and all values.", "anchors": ["src/goats/core/axis.py:Quantity.__getitem__", "src/goats/core/index.py:Array.__getitem__", "src/goats/eprem/__init__.py:Axes._build_coordinate"]}
{"id": "C120", "title": "Species are found by their symbols", "statement": "Indexing the species axis by symbols gives the first position of each, unknown symbols are rejected, and the energies of a species are those of its own row.", "quantifier": "all lists of symbols and requests", "why_tests_cant": "All lists.", "anchors": ["src/goats/eprem/__init__.py:Axes.species", "src/goats/eprem/__init__.py:Axes.energy"]}
{"id": "C121", "title": "Standard unit strings stay as they are", "statement": "Standardising a unit string that is already standard changes nothing.", "quantifier": "all strings", "why_tests_cant": "Infinite strings.", "anchors": ["src/goats/eprem/__init__.py:standardize"]}
{"id": "C122", "title": "Requesting a computed quantity in a unit converts it for the requester only", "statement": "A computed quantity requested in another unit has its values converted, and other requests of the same quantity are not affected.", "quantifier": "all quantities, units and histories of requests", "why_tests_cant": "All histories.", "anchors": ["src/goats/core/computed.py:Quantity.__getitem__", "src/goats/eprem/__init__.py:Functions.__getitem__"]}
{"id": "C123", "title": "Resolving dimensions follows the dataset", "statement": "Resolving names of dimensions gives those of the dataset in its order; the others are dropped, appended or rejected according to the mode.", "quantifier": "all datasets and names", "why_tests_cant": "All lists.", "anchors": ["src/goats/eprem/__init__.py:Axes.resolve"]}
{"id": "C124", "title": "Cartesian components give back the position", "statement": "The x, y and z components of a position lie at its radius, and converting them back gives the radius and the two angles.", "quantifier": "all radii and angles", "why_tests_cant": "Continuum.", "anchors": ["src/goats/core/computed.py:x", "src/goats/core/computed.py:y", "src/goats/core/computed.py:z", "src/goats/core/numerical.py:xyz2rtp"]}
{"id": "C125", "title": "Conversion to spherical coordinates can be undone", "statement": "Converting any vector to radius and angles and back restores the vector.", "quantifier": "all real vectors", "why_tests_cant": "Continuum.", "anchors": ["src/goats/core/numerical.py:xyz2rtp", "src/goats/core/numerical.py:rtp2xyz", "src/goats/core/numerical.py:zero_floor"]}
{"id": "C126", "title": "Spherical coordinates are in their ranges", "statement": "The radius is that of the vector, the polar angle is in [0, pi] and the azimuth in [0, 2 pi).", "quantifier": "all real vectors", "why_tests_cant": "Continuum.", "anchors": ["src/goats/core/numerical.py:xyz2rtp"]}
{"id": "C127", "title": "Rigidity follows the relativistic relation", "statement": "Rigidity times charge is the momentum that satisfies (E + m c^2)^2 = (p c)^2 + (m c^2)^2; rigidity increases with energy and vanishes at rest.", "quantifier": "all energies, masses and charges", "why_tests_cant": "Continuum.", "anchors": ["src/goats/core/computed.py:rigidity"]}
{"id": "C128", "title": "The mean free path scales from its reference value", "statement": "At the reference radius and energy the mean free path is the reference one; it varies as the given power of the radius and does not depend on the charge.", "quantifier": "all radii, energies, masses, charges and powers", "why_tests_cant": "Continuum.", "anchors": ["src/goats/core/computed.py:mean_free_path", "src/goats/core/computed.py:rigidity"]}
{"id": "C129", "title": "The density ratio is relative to the first time", "statement": "The ratio is one at the first time and the density over the first density at all times, whatever the unit of density.", "quantifier": "all histories of the density", "why_tests_cant": "All lists of numbers.", "anchors": ["src/goats/core/computed.py:density_ratio"]}
{"id": "C130", "title": "The divergence of the flow is the decay rate of the density", "statement": "If the density decays exponentially the divergence is the rate at every time, for every choice of times; it does not depend on the unit of density.", "quantifier": "all times and densities", "why_tests_cant": "All grids.", "anchors": ["src/goats/core/computed.py:div_v"]}
{"id": "C131", "title": "The isotropic distribution is an average", "statement": "It lies between the least and the greatest value, is linear, and leaves isotropic distributions unchanged.", "quantifier": "all distributions", "why_tests_cant": "All lists of numbers.", "anchors": ["src/goats/core/computed.py:isotropic_distribution"]}
{"id": "C132", "title": "The average energy lies between the least and greatest energies of the particles", "statement": "For every non-negative distribution of particles of any species, the average energy lies between the kinetic energies at the ends of the range of speeds, and does not depend on the unit of the distribution.", "quantifier": "all species, speeds and distributions", "why_tests_cant": "Continuum.", "anchors": ["src/goats/core/computed.py:average_energy", "src/goats/core/computed.py:energy_density"]}
{"id": "C133", "title": "The flux is that of particles of the given mass", "statement": "The flux of particles of mass m and speed v with distribution f is v^2 f / m.", "quantifier": "all masses, speeds and distributions", "why_tests_cant": "Continuum.", "anchors": ["src/goats/core/computed.py:flux"]}
{"id": "C134", "title": "The fluence integrates the flux over time", "statement": "The fluence is linear in the flux and exact for fluxes that are polynomials of degree at most two in time.", "quantifier": "all times and polynomials", "why_tests_cant": "All grids.", "anchors": ["src/goats/core/computed.py:fluence"]}
{"id": "C135", "title": "The fluence of a positive flux is not negative", "statement": "For every non-negative flux and every choice of times the fluence is non-negative.", "quantifier": "all times and fluxes", "why_tests_cant": "All grids.", "anchors": ["src/goats/core/computed.py:fluence"]}
{"id": "C136", "title": "Spectra are continued to the bound by a power law", "statement": "The flux at the lower bound of an integral lies on the straight line between its neighbours in log-log space, power laws are continued exactly, bounds in the spectrum change nothing.", "quantifier": "all spectra and bounds", "why_tests_cant": "Continuum.", "anchors": ["src/goats/core/computed.py:_interpolate", "src/goats/core/numerical.py:find_nearest"]}
{"id": "C137", "title": "The integral of a uniform spectrum is its height times its width above the bound", "statement": "For every species, set of energies and bound, the integral flux of a uniform spectrum is the flux times the width of the part of the spectrum above the bound, and zero if there is none.", "quantifier": "all energies, bounds and numbers of species", "why_tests_cant": "All grids.", "anchors": ["src/goats/core/computed.py:integral_flux"]}
{"id": "C138", "title": "The integral flux of a positive spectrum is not negative", "statement": "For every non-negative spectrum and every bound the integral flux is non-negative.", "quantifier": "all spectra and bounds", "why_tests_cant": "Continuum.", "anchors": ["src/goats/core/computed.py:integral_flux", "src/goats/core/computed.py:_interpolate"]}
{"id": "C139", "title": "The rate of acceleration depends on the shells ahead and behind", "statement": "The rate at a shell is determined by the velocities and diffusion at its neighbours (itself at the ends), is never negative and vanishes in a uniform flow.", "quantifier": "all numbers of shells, velocities and diffusion coefficients", "why_tests_cant": "All lists.", "anchors": ["src/goats/core/computed.py:acceleration_rate", "src/goats/core/computed.py:_ahead", "src/goats/core/computed.py:_behind"]}
{"id": "C140", "title": "Unknown names raise KeyError with a suggestion", "statement": "Asking an observer for a name that it does not know always raises KeyError, or an error that suggests known names at most two edits away, whatever was asked before.", "quantifier": "all sequences of names", "why_tests_cant": "Unbounded histories.", "anchors": ["src/goats/core/observer.py:Interface.__getitem__", "src/goats/core/observer.py:Interface._check_spelling"]}
{"id": "C141", "title": "Every name in the observing context is accessible", "statement": "Every name that the observing context contains, including other names of constraints, gives a quantity or the value of a constraint.", "quantifier": "all contexts and names", "why_tests_cant": "All contexts.", "anchors": ["src/goats/core/observer.py:Interface.__getitem__", "src/goats/core/observing.py:Context.get_quantity"]}
{"id": "C142", "title": "Accepted names stand for products of powers of observable quantities", "statement": "For every name an observer accepts, the expression that is evaluated has only names of observable quantities; a name of a quantity stands for that quantity itself.", "quantifier": "all names and sets of observable quantities", "why_tests_cant": "All expressions.", "anchors": ["src/goats/core/observer.py:Interface.observes", "src/goats/core/reference.py:NAMES", "src/goats/eprem/__init__.py:Context.observe"]}
{"id": "C143", "title": "The unit of a composed quantity is the product of the powers of the units", "statement": "For every expression in names of observable quantities, the unit to which the observation is converted is the product of the powers of the units of its terms.", "quantifier": "all expressions and units", "why_tests_cant": "All expressions.", "anchors": ["src/goats/core/observing.py:Context.get_metadata"]}
{"id": "C144", "title": "An updated observer uses the latest source and configuration", "statement": "After every sequence of updates, successful or not, a successful update makes the observer use the data in the latest source directory and the latest configuration.", "quantifier": "all histories of updates and file systems", "why_tests_cant": "Unbounded histories.", "anchors": ["src/goats/eprem/__init__.py:Observer.update", "src/goats/eprem/__init__.py:Observer._build_context", "src/goats/eprem/__init__.py:Observer.datapath", "src/goats/eprem/__init__.py:Observer.confpath"]}
{"id": "C145", "title": "Updates keep the metric system", "statement": "The metric system with which an observer was created is that of its observing context after every sequence of updates.", "quantifier": "all histories of updates", "why_tests_cant": "Unbounded histories.", "anchors": ["src/goats/eprem/__init__.py:Observer.update"]}
{"id": "C146", "title": "Failed updates have no effect", "statement": "An update that raises leaves the observer as it was: later calls behave as if it had not been made.", "quantifier": "all histories of updates", "why_tests_cant": "Unbounded histories.", "anchors": ["src/goats/eprem/__init__.py:Observer.update"]}
{"id": "C147", "title": "Inline comments are removed from lines of text", "statement": "For every line and all comment signs, what is left is the text before the first sign, without blanks around it, whatever the order in which the signs are given; it contains no sign, and a second pass changes nothing.", "quantifier": "all lines and lists of comment signs", "why_tests_cant": "All texts.", "anchors": ["src/goats/core/iotools.py:strip_inline_comments"]}
{"id": "C148", "title": "Searching directories finds the first that has the file", "statement": "For every list of paths, the search gives the file in the first of them that is a directory with such a file, and nothing if there is none.", "quantifier": "all lists of paths, file names and file systems", "why_tests_cant": "All file systems.", "anchors": ["src/goats/core/iotools.py:search"]}
{"id": "C149", "title": "A file is found by the first template that fits", "statement": "For every directory and list of templates, the file that is found is named by the first template for which there is a file in the directory.", "quantifier": "all templates, names, directories and file systems", "why_tests_cant": "All file systems.", "anchors": ["src/goats/core/iotools.py:find_file_by_template"]}
{"id": "C150", "title": "Extracting from a text file gives the value in the last matching line for each key", "statement": "For all lines, matching and parsing functions, the extracted dictionary has exactly the keys of matching lines, each with the value in the last such line; a matching line that cannot be parsed is an error.", "quantifier": "all files and functions", "why_tests_cant": "All inputs.", "anchors": ["src/goats/core/iotools.py:TextFile.extract"]}
{"id": "C151", "title": "There is one dataset object for each path", "statement": "In every sequence of calls, the calls with one path give one object, of the class that was called, and calls with different paths give different objects.", "quantifier": "all sequences of calls of all classes", "why_tests_cant": "Unbounded histories.", "anchors": ["src/goats/core/iotools.py:PathSet", "src/goats/core/iterables.py:InstanceSet", "src/goats/core/datafile.py:Interface"]}
{"id": "C152", "title": "The choice of viewers for a dataset concerns this dataset", "statement": "After a viewer is chosen for a dataset, this dataset is read with it, and all other datasets are read as before.", "quantifier": "all histories of opened and read datasets", "why_tests_cant": "Unbounded histories.", "anchors": ["src/goats/core/datafile.py:Interface.use", "src/goats/core/datafile.py:ViewerFactory"]}
{"id": "C153", "title": "Datasets of unknown types are refused", "statement": "Opening a dataset whose type is not supported raises TypeError; others are read with the viewers for their type.", "quantifier": "all types of files", "why_tests_cant": "All types.", "anchors": ["src/goats/core/datafile.py:ViewerFactory._get_viewers"]}
{"id": "C154", "title": "The variables of a dataset are available under all their names", "statement": "For every dataset, each variable and its unit is available under its name in the file and all other names of the quantity, other names raise KeyError, and the names reported as available are exactly these, each once.", "quantifier": "all datasets", "why_tests_cant": "All datasets.", "anchors": ["src/goats/core/datafile.py:Interface.variables", "src/goats/core/datafile.py:Interface.units", "src/goats/core/datafile.py:Interface.available", "src/goats/core/datafile.py:NetCDFVariables"]}
{"id": "C155", "title": "Paths for reading cannot be written", "statement": "A read-only path exists when it is created, and refuses to be written or opened for writing.", "quantifier": "all paths", "why_tests_cant": "All paths.", "anchors": ["src/goats/core/iotools.py:ReadOnlyPath"]}
{"id": "C156", "title": "The constants of a header file are its definitions", "statement": "Reading the constants of a header file gives each defined name its value, without the blanks around it; other lines define nothing, and when a name is defined twice the last definition counts.", "quantifier": "all header files: all lines, names, values and blanks", "why_tests_cant": "The text of a header file is not bounded, and its lines may mix definitions with arbitrary other text.", "anchors": ["src/goats/eprem/runtime.py:BaseTypeDef.match", "src/goats/eprem/runtime.py:BaseTypeDef.parse", "src/goats/eprem/runtime.py:BaseTypesH.load_from_source", "src/goats/core/iotools.py:TextFile.extract"]}
{"id": "C157", "title": "A call that reads a parameter gives its name, function, other name and arguments", "statement": "From a line config.name = function(\"alias\", arguments), the reader takes the name, the function, the alias if it differs from the name, and each argument under its own key (default and limits), without quotes and blanks.", "quantifier": "all such lines: all names, functions, aliases, numbers of arguments, argument texts and blanks", "why_tests_cant": "Names, numbers of arguments and texts are unbounded.", "anchors": ["src/goats/eprem/runtime.py:FunctionCall.match", "src/goats/eprem/runtime.py:FunctionCall.parse", "src/goats/eprem/runtime.py:FunctionCall._normalize"]}
{"id": "C158", "title": "Defaults that name an array are replaced by its value", "statement": "When the default of a parameter is the name of an array defined in the file, the array replaces it; every other parameter is as its last call says, and no parameter prevents others from being read.", "quantifier": "all source files", "why_tests_cant": "The definitions and calls may come in any number and order.", "anchors": ["src/goats/eprem/runtime.py:ConfigurationC.load_from_source", "src/goats/eprem/runtime.py:VariableDefinition.match", "src/goats/eprem/runtime.py:VariableDefinition.parse", "src/goats/eprem/runtime.py:ConfigurationC._get_assignments", "src/goats/eprem/runtime.py:ConfigurationC._get_array_defaults"]}
{"id": "C159", "title": "Converting loaded parameters to the standard form and back changes nothing", "statement": "The standard form of each loaded parameter has the type that its function reads in place of the function and is otherwise the same; formatting it for JSON restores the parameters as loaded.", "quantifier": "all source files that can be read", "why_tests_cant": "It is a statement about every mapping that can be loaded.", "anchors": ["src/goats/eprem/runtime.py:ConfigurationC.standardize", "src/goats/eprem/runtime.py:ConfigurationC.get", "src/goats/eprem/runtime.py:ConfigurationC._replace"]}
{"id": "C160", "title": "Definitions come from the file the user names", "statement": "When the user names a file or a directory with the right file, definitions come from this file; without a name they come from the package; a path that does not exist is refused.", "quantifier": "all file systems and paths", "why_tests_cant": "It depends on the state of the file system.", "anchors": ["src/goats/eprem/runtime.py:SourceFile.__init__", "src/goats/eprem/runtime.py:SourceFile.build_path"]}
{"id": "C161", "title": "An argument has the values it was given", "statement": "Iterating over an argument that was created from one value or a sequence, with or without a unit, gives these values in order, its length is their number and its unit is the given one; a single number other than an integer is refused without a unit, and strings, integers and sequences of them are accepted.", "quantifier": "all values, sequences of values and units", "why_tests_cant": "The number and the kinds of values are not bounded.", "anchors": ["src/goats/core/operational.py:Argument.__new__", "src/goats/core/operational.py:Argument.__init__", "src/goats/core/operational.py:Argument.__iter__", "src/goats/core/operational.py:Argument.__len__"]}
{"id": "C162", "title": "Casting an argument gives its number", "statement": "int() and float() of an argument with one number give this number (int() truncates), int() of a text gives the integer it spells, and both refuse arguments with several values with a cast error.", "quantifier": "all arguments", "why_tests_cant": "The text of an option and the number of values are not bounded.", "anchors": ["src/goats/core/operational.py:Argument.__int__", "src/goats/core/operational.py:Argument.__float__"]}
{"id": "C163", "title": "The truth of an argument", "statement": "An argument is true if it is a number (even zero), if it is true, if it is a text with a character other than blanks, or if it has several values; it is false if it is false, blank or empty.", "quantifier": "all arguments", "why_tests_cant": "Blanks and sequences are not bounded.", "anchors": ["src/goats/core/operational.py:Argument.__bool__"]}
{"id": "C164", "title": "Elements of an argument keep its unit", "statement": "Subscripting an argument with n values and a unit by i in [-n, n) gives the single value at i, counted from the end if i is negative, with the same unit; other subscripts raise IndexError.", "quantifier": "all arguments and all integers", "why_tests_cant": "The number of values and the subscripts are not bounded.", "anchors": ["src/goats/core/operational.py:Argument.__getitem__"]}
{"id": "C165", "title": "Equal arguments", "statement": "Two arguments are equal exactly if they have the same values in the same order and the same unit; equality is symmetric.", "quantifier": "all pairs of arguments", "why_tests_cant": "Two arguments range over all values, lengths and units.", "anchors": ["src/goats/core/operational.py:Argument.__eq__"]}
{"id": "C166", "title": "A parameter is available under each of its names", "statement": "In the interface to a set of named parameters, each name of a parameter gives the same value, which knows all names of this parameter and no other; it is a measured assumption if the parameter has a unit and an option otherwise. A name of no parameter raises KeyError.", "quantifier": "all sets of parameters with disjoint sets of names", "why_tests_cant": "The numbers of parameters and of names are not bounded.", "anchors": ["src/goats/core/constant.py:Interface.__getitem__", "src/goats/core/constant.py:Assumption", "src/goats/core/constant.py:Option"]}
{"id": "C167", "title": "Converting a named quantity keeps its amount and name", "statement": "Asking a scalar, vector or assumption for another unit multiplies each value by the conversion factor and keeps the name; converting back restores the values; a unit that cannot be reached is refused. Elements of an assumption keep its unit and its name, and an assumption with one value converts to a number.", "quantifier": "all quantities, units and conversion factors", "why_tests_cant": "Values, numbers of values and units are not bounded.", "anchors": ["src/goats/core/physical.py:Scalar", "src/goats/core/physical.py:Vector", "src/goats/core/constant.py:Assumption"]}
{"id": "C168", "title": "A constant is the same amount in both systems", "statement": "Each physical constant has a value in both unit systems, which are the same amount, and the name of the system may be written in small or capital letters; unknown constants and unknown systems are refused.", "quantifier": "all constants and all texts for names and systems", "why_tests_cant": "The claim covers every constant of the table, every text for a system and exact rational amounts.", "anchors": ["src/goats/core/fundamental.py:_constants", "src/goats/core/physical.py:Constants"]}
{"id": "C169", "title": "The files given are the files compared", "statement": "Comparing parameter files opens exactly the files whose paths are given, whatever the current directory.", "quantifier": "all lists of paths and all current directories", "why_tests_cant": "Paths and directories are not bounded.", "anchors": ["src/goats/eprem/runtime.py:compare_arguments", "src/goats/eprem/runtime.py:_get_relative_paths"]}
{"id": "C170", "title": "The comparison shows the differences", "statement": "A comparison lists every parameter with its default and its value in each file; restricted to differences it lists exactly the parameters that have different values in two files, and nothing if there are none. Generating defaults into an existing file updates the parameters it has.", "quantifier": "all files, parameters and values", "why_tests_cant": "The numbers of files and parameters and their values are not bounded.", "anchors": ["src/goats/eprem/runtime.py:compare_arguments", "src/goats/eprem/runtime.py:_build_arg_dict", "src/goats/eprem/runtime.py:generate_defaults"]}
{"id": "C171", "title": "Observables and observations behave as values", "statement": "An observable is determined by its name and unit, and an observation by its data, indices and assumptions. After any history of creating observables, asking for their units, dimensions and parameters, converting them, observing them under constraints, converting observations, subscripting them and asking for their arrays, each answer is that of plain values: nothing asked of one changes the answer of another or a later answer of itself.", "quantifier": "all finite histories of uses of any number of observables and observations", "why_tests_cant": "Observables cache their unit, dimensions and parameters and share one observing context; only all histories show that these never leak into an answer.", "anchors": ["src/goats/core/observing.py:Observable", "src/goats/core/observing.py:Observation", "src/goats/core/observing.py:Context"]}
{"id": "C172", "title": "Observing in a unit converts the values", "statement": "Observing an observable in a unit consistent with that of its data gives every value multiplied by the conversion factor, with the same dimensions, shape, indices and assumptions; the same unit leaves the data alone and an inconsistent unit raises ValueError, whatever was observed before.", "quantifier": "all observables, units, constraints and earlier uses of the context", "why_tests_cant": "Data, units and histories are not bounded.", "anchors": ["src/goats/core/observing.py:Observable.observe", "src/goats/core/observing.py:Observation.__getitem__"]}
{"id": "C173", "title": "The name of a metric system selects its unit", "statement": "Subscripting an observable with the name of a metric system, in small or capital letters, gives the observable in the unit of the same quantity in that system.", "quantifier": "all observables and all spellings of system names", "why_tests_cant": "Observables and spellings are not enumerable by tests.", "anchors": ["src/goats/core/observing.py:Observable.__getitem__"]}
{"id": "C174", "title": "An observation has the unit its observable reports", "statement": "Observing an observable for which no unit was chosen gives an observation in the unit the observable reports.", "quantifier": "all observables, including expressions", "why_tests_cant": "The names include all algebraic expressions of quantities.", "anchors": ["src/goats/core/observing.py:Observable.unit", "src/goats/core/observing.py:Observable.observe"]}
{"id": "C175", "title": "An observation gives its axes and assumptions by name", "statement": "Subscripting an observation with a name of one of its axes gives the values along that axis, and with the name of an assumption the value assumed.", "quantifier": "all observations and names", "why_tests_cant": "The sets of axes, assumptions and names are not bounded.", "anchors": ["src/goats/core/observing.py:Observation.__getitem__"]}
{"id": "C176", "title": "Equal observables", "statement": "Two observables are equal exactly if they are the same quantity with equal units and the same axes and parameters.", "quantifier": "all pairs of observables", "why_tests_cant": "Equality relates every pair of names and units.", "anchors": ["src/goats/core/observing.py:Observable.__eq__"]}
{"id": "C177", "title": "The array of an observation drops only single-valued axes", "statement": "The array of an observation has the axes with more than one value, in order, and the value at each position is that of the data at the position with the dropped axes at their only value; asking again gives the same array.", "quantifier": "all observations, numbers of axes and sizes", "why_tests_cant": "The number of axes and their sizes are not bounded.", "anchors": ["src/goats/core/observing.py:Observation.array"]}
{"id": "C178", "title": "The charge of a species is the balance of its signs", "statement": "The charge of a species described by a symbol with trailing signs is the number of plus signs minus the number of minus signs, in units of the elementary charge.", "quantifier": "all symbols and sequences of signs", "why_tests_cant": "Symbols and numbers of signs are not bounded.", "anchors": ["src/goats/core/plasma.py:Species.charge"]}
{"id": "C179", "title": "The mass of a species is that of its element", "statement": "The mass of a species described by the symbol or the name of an element, with any signs, is the mass of that element in nucleons; a symbol of no element is refused.", "quantifier": "all elements of the table, all other texts and all sequences of signs", "why_tests_cant": "Every row of the table combines with unboundedly many signs.", "anchors": ["src/goats/core/plasma.py:Species.mass", "src/goats/core/fundamental.py:ELEMENTS"]}
{"id": "C180", "title": "Symbol, mass and charge describe the same species", "statement": "A species given by the mass of an element and an integral charge has the symbol of that element with a sign for each charge, and the species with that symbol has this mass and this charge.", "quantifier": "all elements and all integral charges", "why_tests_cant": "Charges are not bounded, and the claim joins both directions for every element.", "anchors": ["src/goats/core/plasma.py:Species.symbol", "src/goats/core/plasma.py:Species.mass", "src/goats/core/plasma.py:Species.charge", "src/goats/core/fundamental.py:elements"]}
{"id": "C181", "title": "Properties of a species do not depend on the order of asking", "statement": "Each property of a species gives the same answer, or the same error, whatever was asked before and how often; values given at creation are the values read.", "quantifier": "all species and all sequences of questions", "why_tests_cant": "The properties fill a shared cache; only all sequences show that it does not influence later answers.", "anchors": ["src/goats/core/plasma.py:Species"]}
{"id": "C182", "title": "A species that can be created can be read", "statement": "Creating a species fails with ValueError if neither symbol nor mass nor charge is given; otherwise symbol, mass and charge can be read and mass and charge have units.", "quantifier": "all combinations of given and missing values", "why_tests_cant": "The given values range over all texts and numbers.", "anchors": ["src/goats/core/plasma.py:Species.__init__", "src/goats/core/plasma.py:Species"]}
{"id": "C183", "title": "Units of mechanics convert coherently between the systems", "statement": "For every quantity of the package whose dimension involves only mass, length, time, temperature and amount, converting its mks unit to its cgs unit multiplies by 1000 for each power of mass and 100 for each power of length.", "quantifier": "every quantity of the package's table with such a dimension", "why_tests_cant": "conversions are found by a search through a graph of declared ratios and through decompositions; a test fixes a few pairs", "anchors": ["src/goats/core/metric.py:System", "src/goats/core/metric.py:conversion", "src/goats/core/metric.py:_QUANTITIES"]}
{"id": "C184", "title": "Electric units convert coherently between the systems", "statement": "The factors between the mks and cgs units of the electric quantities satisfy the laws that relate the quantities: energy is charge times potential, conductance is current over potential, capacitance is charge over potential.", "quantifier": "the electric quantities of the package's table", "why_tests_cant": "each declared ratio is checked alone by tests; the laws relate several ratios", "anchors": ["src/goats/core/metric.py:CONVERSIONS", "src/goats/core/metric.py:_QUANTITIES"]}
{"id": "C185", "title": "The unit of a quantity has the dimension of the quantity", "statement": "In each metric system the dimension of the canonical unit of a quantity, as computed from the unit, equals the dimension that the table declares for the quantity.", "quantifier": "every quantity of the table, both systems", "why_tests_cant": "the dimension is computed from the named units of each term; tests check a few rows", "anchors": ["src/goats/core/metric.py:Properties.dimension", "src/goats/core/metric.py:Quantity", "src/goats/core/metric.py:System"]}
{"id": "C186", "title": "Quantities and systems are found by name, whatever its letter case", "statement": "A quantity of the package, given by name in any mixture of small and capital letters, yields its unit in each system, from the quantity or from the system; any other name of a system is refused, and an unknown quantity is reported as a missing key.", "quantifier": "all spellings of all names, all words that name no quantity, every limit on recursion", "why_tests_cant": "there are infinitely many spellings and unknown words", "anchors": ["src/goats/core/metric.py:Quantity.__new__", "src/goats/core/metric.py:Quantity.__getitem__", "src/goats/core/metric.py:System.__getitem__", "src/goats/core/metric.py:_Property"]}
{"id": "C187", "title": "Searching a system for a unit", "statement": "A search by unit yields a unit of the system with the same dimension, a search by dimension yields the unit of a quantity with that dimension or fails when there is none, a search by quantity yields its unit; a unit takes precedence over the other arguments.", "quantifier": "all products of units, all dimensions, all names of quantities, both systems", "why_tests_cant": "the arguments are arbitrary expressions", "anchors": ["src/goats/core/metric.py:System.get_unit"]}
{"id": "C188", "title": "The norm of a unit measures the same quantity in each system", "statement": "The norm of a product of units is, in each system, a product of units of that system whose exponents are those prescribed by the measured quantities; it has the dimension of the unit, and normalizing it again changes nothing.", "quantifier": "all products of any number of the package's units with any integral powers, both systems, every limit on recursion", "why_tests_cant": "products of units are unbounded in length and exponents", "anchors": ["src/goats/core/metric.py:Unit.norm", "src/goats/core/metric.py:Unit.quantity"]}
{"id": "C189", "title": "Equality and equivalence of quantities", "statement": "Two quantities are equal exactly when their names differ at most in letter case, and equivalent exactly when they have the same dimension in every system.", "quantifier": "all names, all pairs of quantities of the table", "why_tests_cant": "there are thousands of pairs and infinitely many spellings", "anchors": ["src/goats/core/metric.py:Quantity.__eq__", "src/goats/core/metric.py:Quantity.__or__"]}
{"id": "C190", "title": "The quantities that have a dimension", "statement": "Asking a dimension for its quantities in a system yields exactly the quantities of the package that have that dimension there.", "quantifier": "all dimensions, both systems, all names of systems", "why_tests_cant": "dimensions are arbitrary expressions", "anchors": ["src/goats/core/metric.py:Dimension.quantities"]}
{"id": "C191", "title": "The variables of a dataset have the amounts of the file", "statement": "Reading a variable of an EPREM dataset in a metric system gives an array with the shape and axes of the file whose values, in the system's unit for that quantity, are the amounts the file states in its own unit; masses are given in the system's unit of mass.", "quantifier": "all arrays, shapes, data sources and axis names, every unit EPREM writes, both systems", "why_tests_cant": "arrays are unbounded and values arbitrary", "anchors": ["src/goats/eprem/__init__.py:Variables.build", "src/goats/eprem/__init__.py:standardize", "src/goats/core/variable.py:Quantity.__init__", "src/goats/core/variable.py:Quantity._update_unit"]}
{"id": "C192", "title": "Every variable of the dataset can be read", "statement": "A variable that is in the dataset and whose array has the axes the file states can be read through the interface, with or without a choice of a metric system.", "quantifier": "all arrays and data sources, all units EPREM writes, all systems or none", "why_tests_cant": "datasets are arbitrary", "anchors": ["src/goats/eprem/__init__.py:Variables.build", "src/goats/core/variable.py:Interface.__getitem__"]}
{"id": "C193", "title": "Variables do not depend on earlier requests", "statement": "Whatever names were requested before, a name gives the quantity built from its own variable, and an unknown name or a variable that cannot be built raises its exception each time.", "quantifier": "all sequences of requests, all datasets", "why_tests_cant": "histories are unbounded", "anchors": ["src/goats/core/variable.py:Interface.__getitem__"]}
{"id": "C194", "title": "The general interface gives the variables of a dataset", "statement": "The interface for datasets of any kind gives, for the name of each variable in the dataset, a quantity with its data.", "quantifier": "all datasets, names and sequences of requests", "why_tests_cant": "datasets and histories are unbounded", "anchors": ["src/goats/core/variable.py:Interface.build"]}
{"id": "C195", "title": "Two aliased mappings are equal exactly when every name has the same value", "statement": "m == n is true exactly when every name that is a key of one is a key of the other with an equal value, however the names are grouped; the same holds against a plain dictionary.", "quantifier": "every pair of aliased mappings, every dictionary, every equality of values", "why_tests_cant": "Mappings have any number of names in any grouping and order; tests compare a few.", "anchors": ["src/goats/core/aliased.py:Mapping.__eq__", "src/goats/core/aliased.py:ItemsView"]}
{"id": "C196", "title": "Equal aliased mappings stay equal under the same calls", "statement": "If two mutable aliased mappings compare equal, then after the same assignments, deletions and alias registrations they compare equal again.", "quantifier": "every pair of equal mappings, every history of calls", "why_tests_cant": "The claim is about every history.", "anchors": ["src/goats/core/aliased.py:Mapping.__eq__", "src/goats/core/aliased.py:MutableMapping"]}
{"id": "C197", "title": "Views of an aliased mapping show its current content", "statement": "The views returned by keys(), values() and items() list the names, values and pairs that the mapping has when they are read, each once, also after calls that change the mapping.", "quantifier": "every mapping, every history of calls between taking the view and reading it", "why_tests_cant": "The claim is about every history.", "anchors": ["src/goats/core/aliased.py:MappingView", "src/goats/core/aliased.py:KeysView", "src/goats/core/aliased.py:ValuesView", "src/goats/core/aliased.py:ItemsView"]}
{"id": "C198", "title": "A mapping made from keys has their names and groups", "statement": "fromkeys(source, value=v) has exactly the names of the source, grouped in the same way, each with the value v, for every source from which a mapping can be made.", "quantifier": "every collection of groups, aliased mapping, mapping of mappings and plain dictionary", "why_tests_cant": "Any number of keys and aliases.", "anchors": ["src/goats/core/aliased.py:Mapping.fromkeys", "src/goats/core/aliased.py:keysfrom"]}
{"id": "C199", "title": "A name map is a mapping whatever has been done to it", "statement": "Iterating over a name map gives each name once, each name given can be looked up, and a copy behaves like the original; this also holds after the map has been inverted.", "quantifier": "every definition of names and aliases, before and after inversion", "why_tests_cant": "Any definitions; tests do not iterate over inverted maps.", "anchors": ["src/goats/core/aliased.py:NameMap", "src/goats/core/iterables.py:MappingBase"]}
{"id": "C200", "title": "The text of a quantity shows its value, its unit and its name", "statement": "The text of a measured or physical quantity is its value followed by its unit in brackets, preceded by its name if it has one; the representation gives the class and the same attributes. The text of a name lists each of its names once, in quotes. An array shows the type of its data instead of the data.", "quantifier": "every value, unit and set of names, whatever their texts", "why_tests_cant": "Any names and any texts; tests show a few quantities.", "anchors": ["src/goats/core/measurable.py:Quantity", "src/goats/core/physical.py:Quantity", "src/goats/core/physical.py:Array", "src/goats/core/iterables.py:ReprStrMixin", "src/goats/core/aliased.py:Group.__str__"]}
{"id": "C201", "title": "The text of an option shows its value, and its name if it has one", "statement": "The text of an option is its value, preceded by its name if it was given one; an option without a name shows only its value.", "quantifier": "every option, named or not", "why_tests_cant": "Any value and names; tests do not print options.", "anchors": ["src/goats/core/constant.py:Option"]}
{"id": "C202", "title": "Parts of a display are edited like a list", "statement": "The text of a display is a sequence of parts between separators: a part can be read by its position, inserting puts a part at its position and leaves the others, and appending adds one at the end; also when the display is empty or the part contains the separator.", "quantifier": "every separator, text, position and new part", "why_tests_cant": "Any number and content of parts; tests use one display.", "anchors": ["src/goats/core/iterables.py:DisplayString"]}
{"id": "C203", "title": "Collections of independent members are compared without their order", "statement": "Two collections of independent members are equal exactly if they have the same members the same number of times, in whatever order; a single string or object counts as one member and nothing as none.", "quantifier": "every type with a total order, every pair of collections", "why_tests_cant": "Any size, order and multiplicity; tests compare short lists.", "anchors": ["src/goats/core/iterables.py:whole"]}
{"id": "C204", "title": "Replacing several characters replaces each character of the text once", "statement": "Replacing several characters at once gives the text in which each character that has a replacement is replaced and the others are kept, whatever the replacements contain.", "quantifier": "every text and every set of replacements", "why_tests_cant": "Any texts and replacements; tests use one.", "anchors": ["src/goats/core/iterables.py:batch_replace"]}
{"id": "C205", "title": "Values of a class attribute are collected once per class that defines it", "statement": "Collecting a class attribute gives the values defined by the class and each of its ancestors, ancestors first, each once.", "quantifier": "every hierarchy of classes", "why_tests_cant": "Any depth and any subset of classes that define the attribute; tests use none.", "anchors": ["src/goats/core/iterables.py:class_attribute"]}
{"id": "C206", "title": "Products and quotients of arrays compute physical amounts", "statement": "numpy's product (or quotient) of two array-like quantities has the unit that the product (quotient) of their units gives, and the amount (number times size of the unit) of each element is the product (quotient) of the operands' amounts at the same named coordinates.", "quantifier": "every pair of arrays with consistent sizes, whatever their axes, caches and units; every measure of units", "why_tests_cant": "Arrays, axes and units are unbounded; a test fixes a few.", "anchors": ["src/goats/core/variable.py:Array.__array_ufunc__", "src/goats/core/variable.py:Quantity._ufunc_hook", "src/goats/core/metadata.py:Unit.__mul__", "src/goats/core/metadata.py:Dimensions.merge"]}
{"id": "C207", "title": "Sums of arrays add amounts and need units that add", "statement": "The sum and difference of array-like quantities with the same axes add and subtract amounts; units that do not add raise the exception of the units, and a plain number is neither added nor subtracted.", "quantifier": "every pair of arrays with the same axes in the same order, every pair of units, every number", "why_tests_cant": "The operands are arbitrary arrays in arbitrary units.", "anchors": ["src/goats/core/variable.py:Array.__array_ufunc__", "src/goats/core/metadata.py:Unit._add_sub", "src/goats/core/metadata.py:Operator.__call__"]}
{"id": "C208", "title": "Negatives, absolute values, powers and roots compute amounts", "statement": "numpy's negative and absolute, powers with whole exponents and the square root of an array-like quantity give the negatives, absolute values, powers and roots of its amounts.", "quantifier": "every array, every unit of positive size, every whole exponent", "why_tests_cant": "Covers all arrays and exponents.", "anchors": ["src/goats/core/variable.py:Array.__array_ufunc__", "src/goats/core/metadata.py:Unit._ufunc_sqrt", "src/goats/core/metadata.py:REFERENCE"]}
{"id": "C209", "title": "Every numpy function of arrays is dimensionally sound or refused", "statement": "Applying any numpy function to array-like quantities either gives the function of their amounts or raises an exception.", "quantifier": "every universal function name, every function of numbers and every array", "why_tests_cant": "There are about a hundred universal functions and unboundedly many arrays.", "anchors": ["src/goats/core/variable.py:Array.__array_ufunc__", "src/goats/core/metadata.py:OperatorFactory.implement"]}
{"id": "C210", "title": "Arrays are ordered by amount", "statement": "The comparison a < b of two array-like quantities is true exactly where the amount of a is less than that of b.", "quantifier": "every pair of arrays and every pair of units of the same dimension", "why_tests_cant": "Units can differ by any factor.", "anchors": ["src/goats/core/variable.py:Array.__array_ufunc__", "src/goats/core/metadata.py:REFERENCE"]}
{"id": "C211", "title": "Equal arrays have equal unit, axes and values", "statement": "Two array-like quantities compare equal exactly when their units are equal, their axes are the same in the same order, and they have the same values at all coordinates.", "quantifier": "every pair of arrays", "why_tests_cant": "All pairs of arrays and axes.", "anchors": ["src/goats/core/variable.py:Quantity.__eq__", "src/goats/core/variable.py:Array.__eq__", "src/goats/core/utilities.py:equal_attrs"]}
{"id": "C212", "title": "Inequality is the negation of equality", "statement": "For two array-like quantities, a != b is the negation of a == b.", "quantifier": "every pair of arrays of the same shape", "why_tests_cant": "All pairs of arrays.", "anchors": ["src/goats/core/variable.py:Array", "src/goats/core/variable.py:Array.__array_ufunc__"]}
{"id": "C213", "title": "Numbers scale arrays from either side", "statement": "Multiplying an array-like quantity by a number, on either side, or dividing it by one scales every amount and keeps unit and axes.", "quantifier": "every array, every number, of Python or numpy", "why_tests_cant": "All arrays and numbers.", "anchors": ["src/goats/core/variable.py:Array.__array_ufunc__", "src/goats/core/metadata.py:Unit.__rmul__", "src/goats/core/metadata.py:Dimensions"]}
{"id": "C214", "title": "Arithmetic never loses the unit", "statement": "The result of arithmetic with numpy's functions on array-like quantities is a quantity with a unit; only comparisons and casts give plain arrays.", "quantifier": "every function, every list of operands that gives a result", "why_tests_cant": "All functions and operands.", "anchors": ["src/goats/core/variable.py:Array._new_from_func", "src/goats/core/variable.py:Array.__array_ufunc__"]}
{"id": "C215", "title": "Operations without a meaningful unit are refused", "statement": "A plain number or array over an array-like quantity, powers with a quantity or an array as exponent and operands of other types raise, whatever the values.", "quantifier": "every array, number and function", "why_tests_cant": "Must hold for every value.", "anchors": ["src/goats/core/variable.py:Array.__init__", "src/goats/core/metadata.py:Operation.supports", "src/goats/core/variable.py:Array.__array_ufunc__"]}
{"id": "C216", "title": "Looking for a value tolerates rounding", "statement": "A value is found in an array exactly when an element differs from it by at most the relative tolerance of a part in 100000.", "quantifier": "every array of numbers and every value", "why_tests_cant": "All arrays and values.", "anchors": ["src/goats/core/variable.py:Array.array_contains", "src/goats/core/variable.py:Array.__contains__"]}
{"id": "C217", "title": "One set of rules per operation", "statement": "The operand types that an operation of a quantity supports are decided by the calls addressed to that operation, by whatever of its names, in order, and by no call addressed to another; all names of an operation give the same object.", "quantifier": "every table of operations without ambiguous names, every history of calls, all names and operand types", "why_tests_cant": "Histories, names and types are unbounded.", "anchors": ["src/goats/core/metadata.py:OperatorFactory", "src/goats/core/metadata.py:OperatorFactory.__getitem__", "src/goats/core/metadata.py:REFERENCE", "src/goats/core/variable.py:Array.__init__"]}
{"id": "C218", "title": "The known operations", "statement": "The operations of a quantity are listed once by each of their names, whatever was called before; any other name raises KeyError for look-up, evaluation and changes of rules.", "quantifier": "every table, history and name", "why_tests_cant": "All histories and names.", "anchors": ["src/goats/core/metadata.py:OperatorFactory", "src/goats/core/metadata.py:OperatorFactory.__getitem__", "src/goats/core/metadata.py:OperatorFactory.operations"]}
{"id": "C219", "title": "Every registered attribute is computed", "statement": "Evaluating a supported operation gives each attribute registered for the quantity, or added to this operation by any of its names, exactly once, with the value that the callable gives for what the operands contribute, or an exception that one of these computations raises; registering no name raises ValueError.", "quantifier": "every table, history, callable and list of operands", "why_tests_cant": "Histories, callables and operands are unbounded.", "anchors": ["src/goats/core/metadata.py:Operation.apply", "src/goats/core/metadata.py:Operation.compute", "src/goats/core/metadata.py:OperatorFactory.register", "src/goats/core/metadata.py:Operation.update"]}
{"id": "C220", "title": "Operations refuse what their rules refuse", "statement": "Evaluating an operation on operands of types that its rules do not support raises OperandTypeError.", "quantifier": "every table, history, operation and list of operands", "why_tests_cant": "All histories and operands.", "anchors": ["src/goats/core/metadata.py:Operation.apply", "src/goats/core/metadata.py:Operation.evaluate", "src/goats/core/metadata.py:OperatorFactory.evaluate"]}
{"id": "C221", "title": "The list of attributes", "statement": "The parameters of the operations of a quantity are the attributes given at creation and those registered since, each listed once.", "quantifier": "every history of calls", "why_tests_cant": "All histories.", "anchors": ["src/goats/core/metadata.py:OperatorFactory.register", "src/goats/core/metadata.py:OperatorFactory.parameters"]}
{"id": "C222", "title": "Functions without an operation", "statement": "A function that has no operation is accepted exactly if one of its operands has the class of the quantity itself; then it gives every registered attribute exactly once, and no rule about any operation matters.", "quantifier": "every history, function and list of operands", "why_tests_cant": "All histories and operands.", "anchors": ["src/goats/core/metadata.py:OperatorFactory.implement"]}
{"id": "C223", "title": "Reading an attribute of all operands", "statement": "Reading an attribute of all operands gives one value per operand in order: its own, and for an operand without the attribute the value of the reference (by default), the operand itself (when forced), nothing (when skipped) or AttributeError (when strict).", "quantifier": "every sequence of operands, with or without a reference", "why_tests_cant": "All sequences.", "anchors": ["src/goats/core/metadata.py:Operands.getall", "src/goats/core/metadata.py:Operands.get", "src/goats/core/metadata.py:Operands.reference"]}
{"id": "C224", "title": "Searching operands", "statement": "Searching for any value of an attribute gives the first true one of an operand that has it; finding by attributes gives exactly the operands with all of them; and all are said to have them exactly if each does.", "quantifier": "every sequence of operands and every list of names", "why_tests_cant": "All sequences and names.", "anchors": ["src/goats/core/metadata.py:Operands.getany", "src/goats/core/metadata.py:Operands.find", "src/goats/core/metadata.py:Operands.allhave"]}
{"id": "C225", "title": "Slices of operands keep their reference", "statement": "Reading an attribute of a slice of the operands gives the same values as reading it of all operands and slicing the result.", "quantifier": "every sequence of operands, every reference and slice", "why_tests_cant": "All sequences and slices.", "anchors": ["src/goats/core/metadata.py:Operands.__getitem__", "src/goats/core/metadata.py:Operands.getall"]}
{"id": "C226", "title": "The names of a quantity", "statement": "The names of a quantity after any series of calls to alias are those given since the last reset that named something, each once; a reset to no name raises TypeError.", "quantifier": "every history of calls to alias", "why_tests_cant": "Histories are unbounded.", "anchors": ["src/goats/core/metadata.py:NameMixin.alias", "src/goats/core/metadata.py:Name"]}
{"id": "C227", "title": "Naming an unnamed quantity", "statement": "A quantity created without a name that is given names has these names and no other.", "quantifier": "every list of names, with and without reset", "why_tests_cant": "All lists of names.", "anchors": ["src/goats/core/metadata.py:NameMixin.alias", "src/goats/core/metadata.py:Name"]}
{"id": "C228", "title": "Equality of expressions is an equivalence that ignores the order of factors", "statement": "Comparing expressions is reflexive, symmetric and transitive; expressions that denote the same monomial compare equal, and reordering the factors of an expression changes nothing.", "quantifier": "all expressions, all reorderings of all lists of terms", "why_tests_cant": "All expressions and permutations.", "anchors": ["src/goats/core/symbolic.py:reduce", "src/goats/core/symbolic.py:Expression.__eq__"]}
{"id": "C229", "title": "Products of expressions commute and powers compose", "statement": "x*y is the same expression as y*x; x/x is 1; powers distribute over products and nested powers multiply.", "quantifier": "all pairs of expressions, all exponents", "why_tests_cant": "All expressions and exponents.", "anchors": ["src/goats/core/symbolic.py:Expression.__mul__", "src/goats/core/symbolic.py:Expression.__truediv__", "src/goats/core/symbolic.py:Expression.__pow__", "src/goats/core/symbolic.py:reduce"]}
{"id": "C230", "title": "Adding and discarding groups of aliases is exact", "statement": "A group of aliases can be added exactly if none of its names is in a group already; then names are grouped as before, plus the new group, and the groups stay disjoint; discarding a name removes its whole group and nothing else.", "quantifier": "every collection of groups, every group and name", "why_tests_cant": "All collections and groups.", "anchors": ["src/goats/core/aliased.py:Groups.merge", "src/goats/core/aliased.py:Groups.add", "src/goats/core/aliased.py:Groups.discard"]}
{"id": "C231", "title": "The first declared weight between two nodes wins", "statement": "The weight between two nodes is the one of the first addition that links them in either direction; no later addition changes it, and nodes never linked raise KeyError.", "quantifier": "every history of additions, all pairs of nodes", "why_tests_cant": "Histories are unbounded.", "anchors": ["src/goats/core/iterables.py:Connections.add_connection", "src/goats/core/iterables.py:Connections.get_weight"]}
{"id": "C232", "title": "Known words pass the spell check and suggestions are known words", "statement": "A known word gets no suggestion in any mode; every suggestion is a known word other than the given one; and an unknown word with a known word one edit away always gets a suggestion.", "quantifier": "every list of words and every given word", "why_tests_cant": "All vocabularies and words.", "anchors": ["src/goats/core/spelling.py:SpellChecker"]}
{"id": "C233", "title": "Conversion factors between named units follow from the declared table", "statement": "Any factor found for two unit names is a nonzero product of declared factors and metric rescalings; if the table gives each unit one size, as that of the package does, the factor is the quotient of the sizes, and converting there and back gives 1.", "quantifier": "every table of conversions, every pair of names, every state of the search", "why_tests_cant": "Tables, cycles and search states are unbounded.", "anchors": ["src/goats/core/metric.py:Conversion", "src/goats/core/iterables.py:Connections"]}
{"id": "C234", "title": "In unambiguous tables a name denotes its unit", "statement": "In tables of prefixes and units in which no name is built twice, each name of a prefixed unit denotes that prefix and that unit; in any tables, only names built from a prefix and a unit are known.", "quantifier": "every table of prefixes and units, every name", "why_tests_cant": "All tables and names.", "anchors": ["src/goats/core/metric.py:build_unit_aliases", "src/goats/core/metric.py:named_units", "src/goats/core/metric.py:identify"]}
{"id": "C235", "title": "Sums of quantities need equal units", "statement": "A sum or difference has a result exactly if the units compare equal; it has the unit of the first operand and the sum of the values. Different units raise an error that tells a different scale from a different dimension, and a plain number is never added.", "quantifier": "all quantities with any units and values, all numbers", "why_tests_cant": "All values and units.", "anchors": ["src/goats/core/measurable.py:Quantified.implement", "src/goats/core/metadata.py:Unit", "src/goats/core/metadata.py:Operator.__call__"]}
{"id": "C236", "title": "Numbers scale quantities", "statement": "Multiplying a quantity by a number, on either side, or dividing it by one scales the value and keeps the unit; the quotient of quantities of the same unit has the unit 1; a number over a quantity and a power with a quantity as exponent are refused.", "quantifier": "all quantities and numbers", "why_tests_cant": "All values and units.", "anchors": ["src/goats/core/measurable.py:Quantified.implement", "src/goats/core/metadata.py:Unit", "src/goats/core/metadata.py:Operator.__call__"]}
{"id": "C237", "title": "Measuring refuses conflicting units", "statement": "Measuring several values with different units, or plain values with more than one unit, raises.", "quantifier": "every list of arguments", "why_tests_cant": "All lists of arguments.", "anchors": ["src/goats/core/measurable.py:measure", "src/goats/core/measurable.py:parse_measurable"]}
{"id": "C238", "title": "An ellipsis among slices stands for all missing axes", "statement": "Subscripting an array quantity with slices and an ellipsis gives what full slices in place of the ellipsis give; the expansion keeps what precedes the ellipsis.", "quantifier": "every array quantity, every list of slices with one ellipsis", "why_tests_cant": "All shapes and slices.", "anchors": ["src/goats/core/variable.py:Array._expand_ellipsis", "src/goats/core/physical.py:Array._expand_ellipsis"]}
{"id": "C239", "title": "Indices along an axis are within it", "statement": "Whatever is given, the indices computed along an axis are within its length; given integers are kept exactly if all are within and rejected otherwise.", "quantifier": "every axis length and every list of given values", "why_tests_cant": "All lengths and lists.", "anchors": ["src/goats/core/axis.py:Indexer", "src/goats/core/index.py:Data"]}
{"id": "C240", "title": "Functions never run with missing or surplus arguments", "statement": "A function whose dependencies give a number of values other than the number of its parameters raises TypeError, and one with an unknown parameter raises KeyError.", "quantifier": "every function signature and mapping of dependencies", "why_tests_cant": "All signatures and mappings.", "anchors": ["src/goats/core/computed.py:Method.parse"]}
{"id": "C241", "title": "The flow angle is on the right side of the field", "statement": "For nonzero fields the flow angle is between 0 and pi and is acute exactly when the flow has a component along the magnetic field, obtuse exactly when it has one against it; for a zero field it is undefined.", "quantifier": "all pairs of real vectors", "why_tests_cant": "Uncountably many vectors.", "anchors": ["src/goats/core/computed.py:flow_angle", "src/goats/core/computed.py:v_para"]}
{"id": "C242", "title": "The dimensions of a computed quantity follow its dependencies", "statement": "The dimensions of a computed quantity are those that a function below it adds, and those of the variables below it that no function below it removes, each once and in the order of the dataset; they are found for every depth of dependencies that are not circular.", "quantifier": "every dataset, every graph of functions", "why_tests_cant": "Graphs and depths are unbounded.", "anchors": ["src/goats/eprem/__init__.py:Functions._gather_dimensions", "src/goats/eprem/__init__.py:Axes.resolve"]}
{"id": "C243", "title": "Asking whether a name is observable gives a sound answer", "statement": "A name is accepted exactly if it is a name of an observable quantity, or has a quotient or product and reads as an expression whose factors are such names; otherwise the answer is no, or the exception of reading it.", "quantifier": "all sets of observables, every name", "why_tests_cant": "All names and collections.", "anchors": ["src/goats/core/observer.py:Interface.observes"]}
{"id": "C244", "title": "The spell check raises exactly for near misses", "statement": "Without a mode the check raises exactly for an unknown word that resembles a known word, naming the words that the suggestions would give; an unknown mode always raises ValueError.", "quantifier": "every vocabulary, word and mode", "why_tests_cant": "All vocabularies and words.", "anchors": ["src/goats/core/spelling.py:SpellChecker.check"]}
{"id": "C245", "title": "Fluence is linear in the flux and exact for linear fluxes", "statement": "The fluence of a flux that changes linearly is exact for all increasing times, and the fluence of k*f + g is k times that of f plus that of g.", "quantifier": "all lists of times and fluxes, all factors", "why_tests_cant": "Uncountably many.", "anchors": ["src/goats/core/computed.py:fluence"]}
{"id": "C246", "title": "A path always gives the same dataset", "statement": "In any sequence of calls the same path gives the same object once a call with it has succeeded, and different paths give different objects.", "quantifier": "every sequence of calls, every class and path", "why_tests_cant": "Histories are unbounded.", "anchors": ["src/goats/core/iotools.py:PathSet", "src/goats/core/iterables.py:InstanceSet", "src/goats/core/datafile.py:Interface"]}
{"id": "C247", "title": "Physical arguments have their values and cast to numbers", "statement": "An argument with a unit has the given numbers in order and that unit; a single one casts to its number and to its truncation, several raise.", "quantifier": "all lists of given values, all units", "why_tests_cant": "All lists.", "anchors": ["src/goats/core/operational.py:Argument.__int__", "src/goats/core/operational.py:Argument.__float__"]}
{"id": "C248", "title": "The truth of arguments", "statement": "A number is true whatever its value; an option is true exactly if it is a true flag, a text that is not blank, or several values.", "quantifier": "all arguments", "why_tests_cant": "All arguments.", "anchors": ["src/goats/core/operational.py:Argument.__bool__"]}
{"id": "C249", "title": "Named quantities in their own unit and their elements", "statement": "Converting a named quantity to its own unit changes nothing, and an undefined conversion raises; an element of an assumption has its unit and name; one with a single value casts to it and others raise.", "quantifier": "all quantities, units and positions", "why_tests_cant": "All quantities.", "anchors": ["src/goats/core/physical.py:Scalar", "src/goats/core/physical.py:Vector", "src/goats/core/constant.py:Assumption"]}
{"id": "C250", "title": "The comparison of configurations shows every parameter", "statement": "Showing a comparison lists every requested parameter once and in order, with its default and its value in each file; writing replaces what was there.", "quantifier": "all files, all lists of parameters", "why_tests_cant": "All files and parameters.", "anchors": ["src/goats/eprem/runtime.py:compare_arguments", "src/goats/eprem/runtime.py:_build_arg_dict", "src/goats/eprem/runtime.py:generate_defaults"]}
{"id": "C251", "title": "Axes and assumptions of an observation are found by name", "statement": "An observation gives the array of an axis by the name of the axis, and an assumption by its name if no axis has it.", "quantifier": "every observation and name", "why_tests_cant": "All observations and names.", "anchors": ["src/goats/core/observing.py:Observation.__getitem__"]}
{"id": "C252", "title": "Quantities and systems are found in any letter case", "statement": "A quantity of the package, in any letter case, gives its unit in each system, from the quantity and from the system; any other system name is refused; and a system lists its quantities once each.", "quantifier": "every quantity of the package, every spelling and system", "why_tests_cant": "Spellings are exponentially many.", "anchors": ["src/goats/core/metric.py:Quantity.__new__", "src/goats/core/metric.py:Quantity.__getitem__", "src/goats/core/metric.py:System.__getitem__", "src/goats/core/metric.py:_Property"]}
{"id": "C253", "title": "Searching a system by unit or by quantity", "statement": "Searching a system by a product of units gives a product of units of the system, and the same dimension if the units are of the system; by the name of a quantity its unit, also after a dimension that no quantity has; an empty text counts as an argument not given; by nothing it raises.", "quantifier": "all systems, products of units and names", "why_tests_cant": "All units and names.", "anchors": ["src/goats/core/metric.py:System.get_unit"]}
{"id": "C254", "title": "Quantities are equal exactly if their names agree", "statement": "Two quantities, or a quantity and a text, compare equal exactly when the names differ at most in letter case.", "quantifier": "all pairs of names", "why_tests_cant": "All names.", "anchors": ["src/goats/core/metric.py:Quantity.__eq__", "src/goats/core/metric.py:Quantity.__or__"]}
{"id": "C255", "title": "A dimension finds its quantities", "statement": "Asking a dimension for its quantities in a system gives exactly those that the tables declare with that dimension.", "quantifier": "every dimension, each system", "why_tests_cant": "Dimensions are unbounded.", "anchors": ["src/goats/core/metric.py:Dimension.quantities"]}
{"id": "C256", "title": "Views of groups follow the mapping", "statement": "A view lists every name of a mapping once with its value; a view of its groups, taken before any calls, shows after them each group of aliases once with its value.", "quantifier": "every consistent mapping and history of calls", "why_tests_cant": "Histories are unbounded.", "anchors": ["src/goats/core/aliased.py:MappingView", "src/goats/core/aliased.py:KeysView", "src/goats/core/aliased.py:ValuesView", "src/goats/core/aliased.py:ItemsView"]}
{"id": "C257", "title": "A mapping made from keys has their groups", "statement": "A mapping made from disjoint groups of names, or from another mapping, has exactly their names and groups, each with the given value.", "quantifier": "every list of disjoint groups, every mapping and value", "why_tests_cant": "All lists and mappings.", "anchors": ["src/goats/core/aliased.py:Mapping.fromkeys", "src/goats/core/aliased.py:keysfrom"]}
{"id": "C258", "title": "Masses of elements give their symbols", "statement": "Masses that are those of elements in the table, with integral charges, give the symbol of the first such element with a sign for each charge; other masses, and lists of different length, raise.", "quantifier": "all lists of masses and charges", "why_tests_cant": "All lists.", "anchors": ["src/goats/core/fundamental.py:elements", "src/goats/core/fundamental.py:get_mass_indices"]}
{"id": "C259", "title": "Constants are found in both systems", "statement": "Each constant of the package is defined in both systems, in any letter case of the name of the system; other constants raise KeyError and other systems raise.", "quantifier": "every name of a constant or system", "why_tests_cant": "All names.", "anchors": ["src/goats/core/fundamental.py:_constants", "src/goats/core/physical.py:Constants"]}
{"id": "C260", "title": "Constants in a header file are read exactly and the last counts", "statement": "Only lines that are definitions are read, and the value of a name is that of its last definition in the file.", "quantifier": "all texts and names", "why_tests_cant": "All files.", "anchors": ["src/goats/eprem/runtime.py:BaseTypeDef.match", "src/goats/eprem/runtime.py:BaseTypeDef.parse", "src/goats/eprem/runtime.py:BaseTypesH.load_from_source", "src/goats/core/iotools.py:TextFile.extract"]}
{"id": "C261", "title": "Stripping comments leaves no comment sign", "statement": "Stripping inline comments leaves no comment sign in the text, and stripping again changes nothing.", "quantifier": "every text, every list of nonempty signs", "why_tests_cant": "All texts.", "anchors": ["src/goats/core/iotools.py:strip_inline_comments"]}
{"id": "C262", "title": "Arithmetic with vectors acts on each value", "statement": "An arithmetic operation of a vector with a vector of the same size or of size one, a scalar or a number (also with the number on the left) succeeds exactly if it is defined for operands of these kinds, for every pair of values and for the units; it then gives the vector of the results at each position, in the resulting unit. If only the kinds of the operands or the units stand against it, the error says which: operands of kinds that the operation does not take raise the error for operands, and units that do not agree raise the error for metadata.", "quantifier": "all operations, vectors, scalars, numbers and unit arithmetics", "why_tests_cant": "The claim is about every combination of sizes, values and units.", "anchors": ["src/goats/core/physical.py:Vector", "src/goats/core/measurable.py:Quantified.implement", "src/goats/core/measurable.py:Quantity"]}
{"id": "C263", "title": "Sums and products do not depend on the order of quantities", "statement": "If units commute, a + b and b + a, and a * b and b * a, have the same values and unit (or raise the same exception) for all scalars, vectors and numbers.", "quantifier": "all pairs of scalars, vectors and numbers", "why_tests_cant": "Each pair of kinds and sizes behaves differently; tests cover few.", "anchors": ["src/goats/core/physical.py:Vector", "src/goats/core/physical.py:Scalar", "src/goats/core/measurable.py:Quantified.implement"]}
{"id": "C264", "title": "A vector made from an object has its values, unit and name", "statement": "Vector(x) has the values of x, and its unit and name, whether x is a list, a measurement, a scalar or a vector, unless others are given.", "quantifier": "all values, units, names and kinds of x", "why_tests_cant": "The cases differ in which attributes are passed on.", "anchors": ["src/goats/core/physical.py:Vector.__init__", "src/goats/core/measurable.py:Quantity.__init__"]}
{"id": "C265", "title": "Positions of a vector give its values", "statement": "v[i] is the scalar at position i, counted from the end if i is negative, for -n <= i < n, and raises IndexError otherwise.", "quantifier": "all vectors and integers", "why_tests_cant": "Positions are unbounded integers.", "anchors": ["src/goats/core/physical.py:Vector.__getitem__"]}
{"id": "C266", "title": "Slices of a vector are lists of scalars", "statement": "v[a:b:s] is the list of the values at positions a, a + s, ... before b as scalars in the unit of the vector; v[::-1] reverses them; a step of zero raises ValueError.", "quantifier": "all vectors, bounds inside them and positive steps", "why_tests_cant": "Bounds and steps range over all integers.", "anchors": ["src/goats/core/physical.py:Vector.__getitem__"]}
{"id": "C267", "title": "Vectors are equal exactly if values and units are", "statement": "v == w exactly if their units are equal and they have the same values in the same order.", "quantifier": "all pairs of vectors", "why_tests_cant": "Equality must hold for all and only the equal ones.", "anchors": ["src/goats/core/physical.py:Vector.__eq__"]}
{"id": "C268", "title": "scalar() keeps a single value and its unit", "statement": "scalar(x) is a scalar with the value and unit of x if x (a quantity, a measurement, a number, a list with or without a unit) has one value; it raises ValueError for several values and Unmeasurable for none.", "quantifier": "all objects with any number of values", "why_tests_cant": "All sizes and kinds of argument.", "anchors": ["src/goats/core/physical.py:scalar", "src/goats/core/measurable.py:measure"]}
{"id": "C269", "title": "Quantities made from named quantities keep the name", "statement": "A scalar made by scalar(), an element of a vector, and a scalar or vector in another unit have the name of the quantity they come from.", "quantifier": "all named scalars and vectors", "why_tests_cant": "A name can be lost in any of several constructions.", "anchors": ["src/goats/core/physical.py:scalar", "src/goats/core/physical.py:Vector.__getitem__", "src/goats/core/measurable.py:Quantity.apply_unit"]}
{"id": "C270", "title": "Scalars and vectors keep their amounts in another unit", "statement": "q[unit] has the same physical amounts as q, in the new unit; a unit of another dimension is refused with ValueError.", "quantifier": "all scalars, vectors and units whose conversion factors are ratios of sizes", "why_tests_cant": "All values and all pairs of units.", "anchors": ["src/goats/core/measurable.py:Quantity.__getitem__", "src/goats/core/measurable.py:Quantity.apply_unit", "src/goats/core/physical.py:Vector", "src/goats/core/physical.py:Scalar"]}
{"id": "C271", "title": "Arrays behave as values whatever is read before", "statement": "Every history of creating, reading, converting and subscripting arrays shows the same values, units, names and exceptions as on immediate values that never change.", "quantifier": "all histories without copies, of any length, over any data source that reads consistently", "why_tests_cant": "Caching and deferred scaling make every read depend on the history.", "anchors": ["src/goats/core/physical.py:Array", "src/goats/core/physical.py:Array._load_array", "src/goats/core/physical.py:Array.apply_unit"]}
{"id": "C272", "title": "Copies of arrays behave as the original", "statement": "Array(array) has the values, unit and name of the array, and every later history shows the same as on values.", "quantifier": "all histories with copies", "why_tests_cant": "A copy keeps the original data and the converted values; the fault shows only later.", "anchors": ["src/goats/core/physical.py:Array.__init__", "src/goats/core/physical.py:Array.apply_unit"]}
{"id": "C273", "title": "Subscripts of arrays give what numpy gives", "statement": "a[positions, slices, ellipsis] is the part that numpy selects from the values of a, in its unit and with its name: a scalar if no axis is left; exceptions are numpy's, and a itself stays as it is.", "quantifier": "all arrays, histories of caching, and subscripts of integers, slices, ellipses and (in tuples) None", "why_tests_cant": "Shapes and subscripts are unbounded.", "anchors": ["src/goats/core/physical.py:Array.__getitem__", "src/goats/core/physical.py:Array._subscript_standard"]}
{"id": "C274", "title": "Lists and new axes in subscripts of arrays", "statement": "A list of positions selects them along its axis, together with ranges on other axes; None inserts an axis.", "quantifier": "all arrays and subscripts with lists or None", "why_tests_cant": "Combinations of lists, ranges and new axes are unbounded.", "anchors": ["src/goats/core/physical.py:Array._subscript_custom", "src/goats/core/physical.py:Array._load_array"]}
{"id": "C275", "title": "Arrays are equal exactly if values and units are", "statement": "a == b exactly if their units are equal and their values in these units have the same shape and are the same, however they were loaded, converted or named.", "quantifier": "all pairs of arrays", "why_tests_cant": "All shapes, values and histories.", "anchors": ["src/goats/core/physical.py:Array.__eq__"]}
{"id": "C276", "title": "numpy functions see the values in the current unit", "statement": "A function of numpy called with arrays and other arguments gives what it gives for the values of the arrays in their current units; an argument of a foreign array type is refused.", "quantifier": "all functions and lists of arguments", "why_tests_cant": "The claim holds for every function of numpy.", "anchors": ["src/goats/core/physical.py:Array.__array_function__", "src/goats/core/variable.py:Array.__array_function__"]}
{"id": "C277", "title": "Results of numpy functions keep the unit", "statement": "A function of numpy whose result is an array of the same kind of quantity (such as numpy.sort or numpy.mean) gives an array in that unit.", "quantifier": "all functions of numpy", "why_tests_cant": "The claim is about every function.", "anchors": ["src/goats/core/physical.py:Array.__array_function__", "src/goats/core/physical.py:Array._new_from_func", "src/goats/core/variable.py:Array._new_from_func"]}
{"id": "C278", "title": "A conversion means the same in every history", "statement": "Conversion(u0, u1) has the factor that the search finds (or fails as it fails), whatever was converted before; asking again gives the same object, which never changes; its inverse converts back, and the inverse of the inverse is the first object; conversion(u0, u1) gives the factor, or None (strict: an error) if there is none.", "quantifier": "all pairs of units, all tables of conversions, and all histories of conversions, inversions and converters", "why_tests_cant": "Instances are cached in global tables; every order of calls must be covered.", "anchors": ["src/goats/core/metric.py:Conversion", "src/goats/core/metric.py:Conversions", "src/goats/core/metric.py:conversion", "src/goats/core/metric.py:Conversion.inverse"]}
{"id": "C279", "title": "Converting the unit of a quantity", "statement": "Quantity(q).convert(a).to(b), with units or names of metric systems for a and b, is the factor from the unit that a stands for to the unit that b stands for, in every history of calls; conversions are defined only for units of the quantity.", "quantifier": "all quantities, units, names of systems (in any case), and histories of calls", "why_tests_cant": "Converters are cached; quantities, units and histories are unbounded.", "anchors": ["src/goats/core/metric.py:Quantity.convert", "src/goats/core/metric.py:Converter"]}
{"id": "C280", "title": "The quotient of two units is the ratio of their sizes", "statement": "u // v is the number of u in one v, for units with the same base unit or joined by a chain of conversions, whether either is given as a unit or as a text; u // u is 1, u // v and v // u are reciprocal, quotients chain; any other object is refused with TypeError.", "quantifier": "all such units, all assignments of sizes consistent with the tables, all histories", "why_tests_cant": "It must hold for every pair of units and every chain of conversions.", "anchors": ["src/goats/core/metric.py:Unit.__floordiv__", "src/goats/core/metric.py:Unit.__rfloordiv__"]}
{"id": "C281", "title": "Collections of dimensions", "statement": "Dimensions(common, mks=..., cgs=...) gives, for each system in any case, the dimension given for it, else the common one; other names raise KeyError; it can be created if and only if there is a dimension.", "quantifier": "all texts, combinations of arguments and orders of the systems", "why_tests_cant": "All combinations of given and missing arguments.", "anchors": ["src/goats/core/metric.py:Dimensions"]}
{"id": "C282", "title": "The metric systems of a named unit", "statement": "For each unit of the package, 'fundamental' lists the systems that use it, 'defined' those that use it up to a prefix, and 'allowed' those, or all if there are none; each list contains the one before, and some system is allowed.", "quantifier": "all named units with every prefix, all orders of the systems", "why_tests_cant": "Hundreds of named units.", "anchors": ["src/goats/core/metric.py:NamedUnit.systems", "src/goats/core/metric.py:NamedUnit.is_fundamental_in", "src/goats/core/metric.py:NamedUnit.is_defined_in", "src/goats/core/metric.py:NamedUnit.is_allowed_in"]}
{"id": "C283", "title": "Reducing an expression to base units", "statement": "reduction(x) has the product of the scales of the reduced units, and the product of their base units.", "quantifier": "all expressions of named units with integral exponents", "why_tests_cant": "Expressions have any number of terms.", "anchors": ["src/goats/core/metric.py:reduction", "src/goats/core/metric.py:Reduction.__mul__", "src/goats/core/metric.py:Reduction.__pow__"]}
{"id": "C284", "title": "Metric consistency of units", "statement": "u | v exactly if u and v have the same dimension in some metric systems or there is a conversion between them; it is reflexive and symmetric; consistent units can be converted.", "quantifier": "all pairs of units", "why_tests_cant": "Any two expressions can be compared.", "anchors": ["src/goats/core/metric.py:Unit.__or__"]}
{"id": "C285", "title": "Parameters of a run follow the current paths", "statement": "After any history of lookups and path_to calls, with any changes of the files, a parameter, the user's arguments and the constants are those that a new Runtime with the current paths would give, provided the source code has not changed since its path was last set and the configuration files have not since theirs was; if a new Runtime cannot be created, the lookup raises the same exception.", "quantifier": "all file contents at all times, all definitions of parameters, all histories of lookups and path changes", "why_tests_cant": "The values depend on four caches that are filled and emptied in any order.", "anchors": ["src/goats/eprem/runtime.py:Runtime.__getitem__", "src/goats/eprem/runtime.py:Runtime.path_to", "src/goats/eprem/runtime.py:Runtime._reset", "src/goats/eprem/runtime.py:Runtime.user", "src/goats/eprem/runtime.py:Runtime.basetypes", "src/goats/eprem/runtime.py:Runtime.reference"]}
{"id": "C286", "title": "Paths of a run", "statement": "path_to(name) gives the path that was given last for that name, at the creation or by path_to(name=path); several names give the list of their paths; a name never given raises KeyError; a call without arguments raises TypeError and changes nothing.", "quantifier": "all histories and names", "why_tests_cant": "Any number of calls may come between.", "anchors": ["src/goats/eprem/runtime.py:Runtime.path_to"]}
{"id": "C287", "title": "A parameter keeps its value between path changes", "statement": "Once a parameter of a Runtime has been read, later reads give the same value until a path is set, whatever happens to the files and whatever else is read; the user's arguments and the constants are the same until the path to the configuration file or to the source code is set.", "quantifier": "all file contents at all times, all histories without path changes", "why_tests_cant": "The files may change between any two reads.", "anchors": ["src/goats/eprem/runtime.py:Runtime.__getitem__", "src/goats/eprem/runtime.py:Runtime.user", "src/goats/eprem/runtime.py:Runtime.basetypes", "src/goats/eprem/runtime.py:Runtime.reference"]}
{"id": "C288", "title": "Constants and formats of the source code", "statement": "A constant of BaseTypesH has the same value whatever was asked for before; get gives the value, or the default for an unknown name; format('json') gives exactly the definitions in their order, format() the values; other formats raise NotImplementedError; the 'json' format of ConfigurationC gives back the definitions as in the file.", "quantifier": "all definitions, all histories of lookups, gets and formats", "why_tests_cant": "Cached values must be right for every order of calls.", "anchors": ["src/goats/eprem/runtime.py:SourceFile.get", "src/goats/eprem/runtime.py:SourceFile.format", "src/goats/eprem/runtime.py:BaseTypesH.__getitem__", "src/goats/eprem/runtime.py:BaseTypesH.get", "src/goats/eprem/runtime.py:ConfigurationC.get"]}
{"id": "C289", "title": "Names of the parameters of a run", "statement": "The names that iteration, length and views of a Runtime give are those of a new Runtime with the current paths.", "quantifier": "all file contents and histories", "why_tests_cant": "Iteration may follow any path change.", "anchors": ["src/goats/eprem/runtime.py:Runtime.__init__", "src/goats/eprem/runtime.py:Runtime.path_to", "src/goats/core/iterables.py:MappingBase"]}
{"id": "C290", "title": "Every expression is in canonical form", "statement": "Every symbolic expression built from text and by products, quotients and powers has its terms in canonical form: at most one constant, which comes first unless it is 1, no repeated bases and no vanishing exponents or coefficients.", "quantifier": "all texts and all finite combinations of products, quotients and powers", "why_tests_cant": "There are infinitely many ways to build an expression.", "anchors": ["src/goats/core/symbolic.py:Expression", "src/goats/core/symbolic.py:reduce"]}
{"id": "C291", "title": "Operands given as text", "statement": "A product or quotient with a text on either side is the product or quotient with the expression of that text; products do not depend on the side; product, ratio and equality agree with the operators, product commutes, ratio(a, a) is 1 and equality is an equivalence; a text that cannot be read raises the same exception everywhere.", "quantifier": "all expressions and texts", "why_tests_cant": "Laws over all operands.", "anchors": ["src/goats/core/symbolic.py:Expression.__rmul__", "src/goats/core/symbolic.py:Expression.__rtruediv__", "src/goats/core/symbolic.py:product", "src/goats/core/symbolic.py:ratio", "src/goats/core/symbolic.py:equality"]}
{"id": "C292", "title": "Differences of expressions", "statement": "x.difference(y) has exactly the terms of x that are not in y, the symmetric difference those that are in exactly one, the split difference is the pair of both; no term is repeated; two expressions have no symmetric difference exactly if they denote the same monomial.", "quantifier": "all expressions and texts", "why_tests_cant": "The claim is about all pairs of expressions.", "anchors": ["src/goats/core/symbolic.py:Expression.difference"]}
{"id": "C293", "title": "Evaluating a term", "statement": "Calling a term with a number gives the coefficient times the number to the exponent; the product of the values of all terms is the value of the expression; constants cannot be called; negative powers of 0 raise ZeroDivisionError.", "quantifier": "all terms with integer exponents and all numbers", "why_tests_cant": "Infinitely many numbers and exponents.", "anchors": ["src/goats/core/symbolic.py:Term.__call__", "src/goats/core/symbolic.py:Term.__float__"]}
{"id": "C294", "title": "Comparing a term with a number", "statement": "A term equals a number exactly if it is a constant with the same value.", "quantifier": "all terms and numbers", "why_tests_cant": "All terms and numbers.", "anchors": ["src/goats/core/symbolic.py:Term.__eq__", "src/goats/core/symbolic.py:Term.__float__"]}
{"id": "C295", "title": "Styles of text", "statement": "An expression is printed with its exponents after a caret by default, in braces with a style that mentions 'tex' in any case; another style raises ValueError exactly if some exponent must be printed.", "quantifier": "all expressions with exactly representable coefficients, all separators and styles", "why_tests_cant": "All expressions and styles.", "anchors": ["src/goats/core/symbolic.py:Expression.format", "src/goats/core/symbolic.py:Term.format", "src/goats/core/symbolic.py:Term._format_exponent"]}
{"id": "C296", "title": "Applying a function to the bases of an expression", "statement": "x.apply(f) is x with every base replaced by its image under f, and so is multiplicative in x.", "quantifier": "all expressions, all commutative monoids with powers, all functions", "why_tests_cant": "The claim is about all functions and expressions.", "anchors": ["src/goats/core/symbolic.py:Expression.apply"]}
{"id": "C297", "title": "A singleton class always gives the same object", "statement": "In any history of calls of classes derived from Singleton by single inheritance, all calls of one class return the same object.", "quantifier": "all class hierarchies with single inheritance, all histories of calls", "why_tests_cant": "The object depends on which relatives were called before.", "anchors": ["src/goats/core/iterables.py:Singleton.__new__"]}
{"id": "C298", "title": "A singleton class gives an object of its own", "statement": "A call of a class derived from Singleton returns an instance of that class, always the same, also with several parents.", "quantifier": "all class hierarchies, all histories of calls", "why_tests_cant": "The object depends on which relatives were called before.", "anchors": ["src/goats/core/iterables.py:Singleton.__new__"]}
{"id": "C299", "title": "Lookups in uniform mappings", "statement": "UniformMapping(m, T)[key] is T(**m[key]), without the entries that are not parameters; unknown keys raise KeyError.", "quantifier": "all mappings, all classes given by their parameters and defaults", "why_tests_cant": "All classes and mappings.", "anchors": ["src/goats/core/iterables.py:UniformMapping.__init__", "src/goats/core/iterables.py:UniformMapping.__getitem__"]}
{"id": "C300", "title": "Registries are independent", "statement": "What is registered in or reset on one ObjectRegistry does not affect another, also after copy(); a copy starts with the entries of the original; reset() restores the entries at the creation of the registry or copy.", "quantifier": "all histories of creations, registrations, resets and copies", "why_tests_cant": "Entries are shared between copies; the claim is about all interleavings.", "anchors": ["src/goats/core/iterables.py:ObjectRegistry.register", "src/goats/core/iterables.py:ObjectRegistry.reset", "src/goats/core/iterables.py:ObjectRegistry.copy"]}
{"id": "C301", "title": "A registry holds what was registered", "statement": "After register(obj, name, **metadata), the entry at the name (or at the defined name of the object) holds the object and the metadata, all other entries are unchanged, and reset() restores the initial entries.", "quantifier": "all histories, objects, names and metadata", "why_tests_cant": "All histories and names.", "anchors": ["src/goats/core/iterables.py:ObjectRegistry.register", "src/goats/core/iterables.py:ObjectRegistry._get_default_key", "src/goats/core/iterables.py:ObjectRegistry.copy", "src/goats/core/iterables.py:ObjectRegistry.reset"]}
{"id": "C302", "title": "Collection mixin is a live view", "statement": "After any sequence of assignments and calls of collect, length, iteration and membership of the object are those of the current value of the attribute named last, of an empty collection if there is none; before collect, they raise AttributeError.", "quantifier": "all sequences of assignments, deletions and calls of collect", "why_tests_cant": "The attribute may change at any time.", "anchors": ["src/goats/core/iterables.py:CollectionMixin.collect", "src/goats/core/iterables.py:CollectionMixin._collection", "src/goats/core/iterables.py:CollectionMixin.__len__"]}
{"id": "C303", "title": "A table follows its entries", "statement": "After any changes of the entries of a Table, lookups are those of a new Table with these entries.", "quantifier": "all histories of lookups and changes", "why_tests_cant": "The common keys are kept from the first lookup.", "anchors": ["src/goats/core/iterables.py:Table.keys", "src/goats/core/iterables.py:Table.__getitem__", "src/goats/core/iterables.py:Table.get"]}
{"id": "C304", "title": "Nested lookups, queues and checks", "statement": "get_nested_element follows the path of keys and composes; repeated pop empties a list from the front and then gives the default; RequiredAttrMeta creates an object exactly if it has all required attributes; oftype accepts its arguments exactly if all are of the type.", "quantifier": "all nested mappings and paths, all lists and numbers of calls, all lists of attributes", "why_tests_cant": "All depths and lengths.", "anchors": ["src/goats/core/iterables.py:get_nested_element", "src/goats/core/iterables.py:pop", "src/goats/core/iterables.py:RequiredAttrMeta.__call__", "src/goats/core/iterables.py:oftype"]}
{"id": "C305", "title": "Texts that are numbers", "statement": "A text of a configuration file is read as a real number exactly when it is a decimal numeral, possibly between spaces, and it is then the number written; as a whole number exactly when the numeral has neither a point nor an exponent.", "quantifier": "all texts (without inf, nan and underscores between digits)", "why_tests_cant": "There are infinitely many numerals and texts that are not.", "anchors": ["src/goats/eprem/runtime.py:Runtime._evaluate", "src/goats/eprem/runtime.py:ConfigFile", "src/goats/core/numerical.py:cast"]}
{"id": "C306", "title": "Every parameter of the package has the user's value or its default", "statement": "Whatever configuration file the user gives, each parameter of the package has the value of the user's text, or without one that of the default, which may be the value or sum of other parameters.", "quantifier": "all configuration files, all parameters of the package", "why_tests_cant": "Defaults refer to other parameters, which any file may give.", "anchors": ["src/goats/eprem/runtime.py:Runtime.__getitem__", "src/goats/eprem/runtime.py:Runtime._evaluate", "src/goats/eprem/runtime.py:Interface", "src/goats/eprem/runtime.json"]}
{"id": "C307", "title": "Names and units of the package's parameters", "statement": "With any configuration file whose texts can be read and for which the stop time is not a sum that cancels, each parameter has its value and its unit under each of its names (its own, its aliases, and those of the observable quantity with that name) and no other name is known.", "quantifier": "all configuration files with texts that can be read, all names, all iteration orders of sets", "why_tests_cant": "All files and all texts as names.", "anchors": ["src/goats/eprem/runtime.py:Interface", "src/goats/eprem/runtime.py:Interface.__getitem__", "src/goats/core/reference.py:ALIASES", "src/goats/core/aliased.py:Groups.merge"]}
{"id": "C308", "title": "Arguments from the package's parameters", "statement": "The interface gives, under each name of a parameter, an argument with the parameter's numbers in order and its unit; one number converts to float and, cut, to int; a text is the data.", "quantifier": "all configuration files with texts that can be read, all parameters and names", "why_tests_cant": "All files and values.", "anchors": ["src/goats/eprem/runtime.py:Interface.__getitem__", "src/goats/core/operational.py:Argument"]}
{"id": "C309", "title": "Default speeds are below that of light", "statement": "The default speeds of the package, in their units, are below the speed of light among its constants.", "quantifier": "all iteration orders of sets", "why_tests_cant": "It relates the values of one table to the units in another through the interface.", "anchors": ["src/goats/eprem/runtime.py:Interface", "src/goats/eprem/runtime.json"]}
{"id": "C310", "title": "Groups of names can be found and left out by any of their names", "statement": "A collection of groups of names contains a name exactly if one of the groups has it; searching by a name gives the group with that name; leaving out names leaves exactly the groups without them; adding a group with a name that another group has already raises ValueError.", "quantifier": "all collections of groups, all names and groups", "why_tests_cant": "The result depends on which groups share names; tests see a few collections.", "anchors": ["src/goats/core/aliased.py:Groups", "src/goats/core/aliased.py:Groups.get", "src/goats/core/aliased.py:Groups.without"]}
{"id": "C311", "title": "The other names of a key", "statement": "alias(k) gives the other names of the key, with the key itself if asked for; all of these look up the same value. For an unknown key the result is None with the key itself asked for, and a TypeError without.", "quantifier": "all aliased mappings, keys and flags", "why_tests_cant": "Any number of names per key.", "anchors": ["src/goats/core/aliased.py:Mapping.alias"]}
{"id": "C312", "title": "Look-up by a whole group of names", "statement": "Looking up a group of names gives the value of the key with exactly these names, and raises KeyError if the names are not exactly those of one key.", "quantifier": "all aliased mappings and groups", "why_tests_cant": "Any number of names in any order.", "anchors": ["src/goats/core/aliased.py:Mapping.__getitem__", "src/goats/core/aliased.py:Group"]}
{"id": "C313", "title": "Subscripts of arrays select the documented elements", "statement": "Positions, ranges with any bounds and steps, `...` and None, alone or in a tuple, give the elements that numpy documents for basic indexing, in an array with the documented sizes (a scalar if no axis is left), with the same unit and name.", "quantifier": "all arrays, data sources and valid subscripts without lists", "why_tests_cant": "Bounds and steps range over all integers and the number of axes is not limited.", "anchors": ["src/goats/core/physical.py:Array.__getitem__", "src/goats/core/physical.py:Array._normalize_indices", "src/goats/core/variable.py:Array._load_array"]}
{"id": "C314", "title": "Ranges of a variable keep its axes", "statement": "Subscripting a variable with ranges of any bounds and steps, and at most one `...`, gives a variable with the same axes, unit and the documented elements.", "quantifier": "all variables, bounds and steps", "why_tests_cant": "Bounds and steps range over all integers.", "anchors": ["src/goats/core/variable.py:Quantity.__getitem__", "src/goats/core/variable.py:Array.__getitem__"]}
{"id": "C315", "title": "Invalid subscripts of arrays raise the documented errors", "statement": "A subscript without lists fails exactly if it is invalid: more than one `...`, more subscripts than axes, a position outside its axis or a step of 0. The error is IndexError, or ValueError for a step of 0.", "quantifier": "all arrays and subscripts without lists", "why_tests_cant": "All integers and all numbers of subscripts.", "anchors": ["src/goats/core/physical.py:Array.__getitem__", "src/goats/core/variable.py:Array._load_array"]}
{"id": "C316", "title": "Axes have names", "statement": "A variable made without names of axes has the axes x0, x1, ..., which are distinct and as many as the axes of its data; with names, it has these, and the wrong number of names raises ValueError.", "quantifier": "all data and lists of names", "why_tests_cant": "Any number of axes.", "anchors": ["src/goats/core/variable.py:Quantity.__init__"]}
{"id": "C317", "title": "Sums of variables with sizes that fit or do not fit", "statement": "The sum of two variables with the same axes has, for each axis, the size that is not 1, and each element is the sum of the elements at its position, the only position where a size is 1; sizes that do not fit raise ValueError.", "quantifier": "all pairs of variables with the same axes", "why_tests_cant": "All numbers of axes and sizes.", "anchors": ["src/goats/core/variable.py:Quantity.__array_ufunc__", "src/goats/core/variable.py:Array.__array_ufunc__"]}
{"id": "C318", "title": "What axes accept", "statement": "The index of an axis of default kind accepts whole numbers, numbers (cut toward zero) and numerals for whole numbers, and gives their indices in order if all of them are within the axis; otherwise it raises ValueError. The first object that stands for no index decides the error: ValueError for a text, IndexTypeError for any other object. The axis of shells accepts whole numbers only (else ValueError), an axis of coordinates accepts numbers and one unit after them (else TypeError, or ValueError if its own unit cannot be converted), the axis of species accepts its symbols and numbers (else ValueError for a text and TypeError for other objects). An axis without a unit cannot be converted (TypeError), and none to an inconsistent unit (ValueError).", "quantifier": "all sizes, all lists of objects that do not begin with a slice or range, all coordinates, units, conversion factors and symbols", "why_tests_cant": "lists of objects of any length and mixture; the error depends on the first wrong object and where it stands", "anchors": ["src/goats/core/axis.py:Indexer.normalize", "src/goats/core/axis.py:Quantity.index", "src/goats/core/index.py:Data", "src/goats/eprem/__init__.py:shell", "src/goats/eprem/__init__.py:species", "src/goats/eprem/__init__.py:_build_coordinate"]}
{"id": "C319", "title": "Texts of objects are templates with the attributes filled in", "statement": "The text of an object is its template in which each attribute name between braces is replaced by that attribute's text and each doubled brace by one brace, whatever else the template contains; a template with an unknown name raises KeyError, and one with an unmatched brace ValueError.", "quantifier": "all templates and all attributes", "why_tests_cant": "templates of any length in which names, braces and other characters alternate in any way", "anchors": ["src/goats/core/iterables.py:Display", "src/goats/core/iterables.py:DisplayMap", "src/goats/core/iterables.py:ReprStrMixin"]}
{"id": "C320", "title": "Objects of a type and with members of a type", "statement": "hastype is true exactly if the object is an instance of one of the types, or is an instance of a wrapper and some member (all members, if strict) is an instance; it raises TypeError exactly if an object of a wrapper, not itself of the types, has no members.", "quantifier": "all objects, types, lists of wrappers and both modes", "why_tests_cant": "nesting and number of members and of wrappers are unbounded", "anchors": ["src/goats/core/iterables.py:hastype"]}
{"id": "C321", "title": "The first method with a result", "statement": "Applying several methods gives the result of the first method that has one; an exception of an earlier method is raised; the methods after it do not matter; if no method has a result there is none.", "quantifier": "all lists of methods and all arguments", "why_tests_cant": "any number of methods, which may have results or raise exceptions in any combination", "anchors": ["src/goats/core/iterables.py:apply"]}
{"id": "C322", "title": "Columns of a table", "statement": "A key that every row has gives the values of that key, row by row; any other key raises the table's own key error; with a default, the rows without the key give the default. A table without rows raises IndexError in every case.", "quantifier": "all tables, keys and defaults", "why_tests_cant": "tables of any number of rows with any keys", "anchors": ["src/goats/core/iterables.py:Table.__getitem__", "src/goats/core/iterables.py:Table.get", "src/goats/core/iterables.py:Table.keys"]}
{"id": "C323", "title": "Every value with its unit", "statement": "Parsing a measurable object with distribution gives one pair of a value and its unit for every number in the object, in order; objects with different units may be combined. If the object is measurable with one unit, the values and the unit are those of the measurement. Nothing (None, an empty text or list, however wrapped) raises Unmeasurable, and a flat list with two units raises MeasuringTypeError.", "quantifier": "all nested measurable objects, of any depth and length", "why_tests_cant": "the nesting and the number of values and units are unbounded", "anchors": ["src/goats/core/measurable.py:parse_measurable", "src/goats/core/measurable.py:_wrap_measurable", "src/goats/core/measurable.py:_callback_parse", "src/goats/core/iterables.py:distribute"]}
{"id": "C324", "title": "Which units are consistent", "statement": "u | v is true exactly if u and v have the same dimension in some metric systems, or measure the same product of quantities, or v converts to u. The product of quantities that a product of units measures has, for every quantity, the sum of the exponents of the units that measure it; so units that measure the same quantities to the same powers are consistent.", "quantifier": "all pairs of units; for the quantities, all products of non-photometric units of the package to whole powers", "why_tests_cant": "Any two expressions can be compared.", "anchors": ["src/goats/core/metric.py:Unit.__or__", "src/goats/core/metric.py:Unit.quantity"]}
{"id": "C325", "title": "Creating dimensions", "statement": "Dimensions(...) has exactly the given names in the given order, given one by one or as one sequence; several arguments of which some is not a string raise TypeError.", "quantifier": "all sequences of names and of arguments", "why_tests_cant": "The constructor unwraps its arguments, whatever their number and nesting.", "anchors": ["src/goats/core/metadata.py:Dimensions.__init__"]}
{"id": "C326", "title": "A restriction of an array selects the slices at its indices", "statement": "Applying a restriction to an array along an axis (the last one by default) gives an array that has, along this axis, one slice for each index of the restriction, in the order of the indices; negative indices and axes count from the end, and all other axes stay in their places. An index or an axis that the array does not have is an IndexError.", "quantifier": "all arrays of any number of axes, all axes, all sequences of indices", "why_tests_cant": "Every shape, axis and sequence of indices is possible.", "anchors": ["src/goats/core/interpolation.py:Restriction.__init__", "src/goats/core/interpolation.py:Restriction.apply"]}
{"id": "C327", "title": "Restriction of an array to a target coordinate", "statement": "Restricting an array of any number of axes along an axis with increasing coordinates leaves the two slices at the coordinates next to the target if the target lies between them, and the slice at the target if it is one of the coordinates.", "quantifier": "all increasing sequences of coordinates, all targets within them, all arrays with such an axis", "why_tests_cant": "The target may lie in any interval of any sequence and the axis may be any one.", "anchors": ["src/goats/core/interpolation.py:restrict_coordinate", "src/goats/core/interpolation.py:Restriction.apply"]}
{"id": "C328", "title": "The array and the parameters of an observed quantity do not depend on what was asked before", "statement": "The array of an observed quantity has the values of its data without the axes of size 1, and its parameters are the names of its assumptions, after any sequence of uses of the array, of the parameters and of subscripts.", "quantifier": "all data, indices and assumptions, all histories of use", "why_tests_cant": "Caches are filled by earlier uses, and there are unboundedly many histories.", "anchors": ["src/goats/core/observed.py:Quantity.array", "src/goats/core/observed.py:Quantity.parameters"]}
{"id": "C329", "title": "An observed quantity gives its axes and assumptions by name", "statement": "Subscripting an observed quantity with the name of one of its axes gives the indices of that axis; with the name of one of its assumptions, which is not also an axis, the assumption; with anything but text (or a group of names or a unit), a TypeError; after any sequence of earlier uses.", "quantifier": "all observed quantities, all names, all histories of use", "why_tests_cant": "The names and the histories are unbounded.", "anchors": ["src/goats/core/observed.py:Quantity.__getitem__"]}
{"id": "C330", "title": "Subscripting an observed quantity with a unit gives it in that unit", "statement": "If the text is neither the name of an axis nor of an assumption, the result is a new observed quantity in the unit that the text names, with converted values.", "quantifier": "all observed quantities, all units", "why_tests_cant": "Every unit is possible.", "anchors": ["src/goats/core/observed.py:Quantity.__getitem__"]}
{"id": "C331", "title": "Observed quantities are equal if their attributes are", "statement": "Two observed quantities compare as equal exactly when their data, indices and assumptions are equal.", "quantifier": "all pairs of observed quantities", "why_tests_cant": "Every pair is possible.", "anchors": ["src/goats/core/observed.py:Quantity.__eq__"]}
{"id": "C332", "title": "An observer observes a quantity with several names if it observes one of them", "statement": "Asking an observer whether it observes a quantity that is given by several names (a collection of names or a name with aliases) gives True if and only if it observes the quantity by one of these names.", "quantifier": "all tables of observable quantities, all collections of names", "why_tests_cant": "Every collection of names is possible.", "anchors": ["src/goats/core/observer.py:Interface.observes"]}
{"id": "C333", "title": "Converting a quantity preserves amounts", "statement": "For quantities whose units are products of the package's units, every program that creates, reads, converts and takes subsets of quantities shows numbers that, times the size of the unit, are the numbers of the data times the size of the data's unit: a conversion between comparable units succeeds, keeps axes and shape, and changes the amount of no element, whatever was cached, read or converted before.", "quantifier": "every history of creations, reads, conversions and subsets; every data source; every pair of comparable units; every earlier history of conversions", "why_tests_cant": "the factors come from a search over the table of conversions with caches that every earlier conversion changes, and the scaling is deferred until the array is read", "anchors": ["src/goats/core/variable.py:Quantity._update_unit", "src/goats/core/variable.py:Quantity._get_array", "src/goats/core/measurable.py:Unit.__floordiv__", "src/goats/core/measurable.py:Unit.__or__", "src/goats/core/measurable.py:Conversion"]}
{"id": "C334", "title": "The user's own values are told apart from defaults", "statement": "Asking the interface to the parameters for the value in the user's configuration file, with a default, gives the value that the file assigns to the parameter of this name, and the given default if the file assigns none or if there is no such parameter.", "quantifier": "all configuration files whose texts can be read, all names, all defaults", "why_tests_cant": "Every file and every name are possible.", "anchors": ["src/goats/eprem/runtime.py:Interface.config", "src/goats/eprem/runtime.py:Interface.get"]}
{"id": "C335", "title": "Texts as lists of numbers", "statement": "Converting a text to a list succeeds exactly if it begins with an opening and ends with a closing square bracket and consists, apart from brackets at its ends (of which there may be any number), of decimal numerals separated by commas, each possibly between single quotes and white space; the result has the numbers in order. As the value of a parameter of type list, any text without both brackets stays the text it is.", "quantifier": "all texts", "why_tests_cant": "The claim is about every text, however many members it has.", "anchors": ["src/goats/core/iterables.py:string_to_list", "src/goats/core/numerical.py:cast", "src/goats/eprem/runtime.py:soft_convert"]}
{"id": "C336", "title": "Double precision", "statement": "Where numbers of expressions go through floats, each becomes the nearest double (the even one of two), so that a number that a double can hold is kept, and different fractions of numbers below 2^26 stay different. Hence expressions whose coefficients and exponents are such fractions are equal exactly if they are algebraically identical, and equal ones have the same hash; expressions whose coefficients are whole numbers, halves, quarters or eighths that a double can hold, and whose exponents have one digit of denominator, are read back from their text as they were.", "quantifier": "all rational numbers, all expressions with such numbers", "why_tests_cant": "The claim is about every number and every expression with numbers in the stated range.", "anchors": ["src/goats/core/symbolic.py:Expression.__eq__", "src/goats/core/symbolic.py:Expression.format", "src/goats/core/symbolic.py:Expression.__hash__", "src/goats/core/symbolic.py:Term"]}
{"id": "C337", "title": "Decimal numbers in expressions", "statement": "A chain of factors joined by blanks, '*' and '/', each a decimal number (sign, point and unsigned power of ten are optional) or a base with a decimal number directly before it and a decimal exponent, denotes the product of what is written: a number before a base and an exponent count exactly with the value the decimal notation gives them (here the power of ten may have a sign), a number alone counts with that value rounded to a float, and a quotient inverts its factor. A number alone is the constant with its value. In strict mode a quotient followed by a quotient or a product raises RatioError or ProductError.", "quantifier": "all chains of all lengths, all numerals without a zero value, all bases except those starting with 'sqrt' and those that make a power of ten of the number before them", "why_tests_cant": "Numerals and chains are unbounded, and the number is found by a backtracking pattern that competes with the pattern for bases.", "anchors": ["src/goats/core/symbolic.py:OperandFactory.rational", "src/goats/core/symbolic.py:OperandFactory._match_simplex", "src/goats/core/symbolic.py:OperandFactory._build_constant", "src/goats/core/symbolic.py:OperandFactory._build_variable", "src/goats/core/symbolic.py:Parser.parse"]}
{"id": "C338", "title": "Signed powers of ten in expressions", "statement": "A number in scientific notation denotes that number in an expression, whatever the sign of its power of ten.", "quantifier": "all numerals with a signed power of ten, alone or directly before a base", "why_tests_cant": "The pattern for bases can claim the letter of the power; which pattern wins depends on everything that follows it.", "anchors": ["src/goats/core/symbolic.py:OperandFactory._match_simplex", "src/goats/core/symbolic.py:OperandFactory.rational"]}
{"id": "C339", "title": "The grammar of written expressions", "statement": "Factors (decimal numbers, fractions with a one-digit denominator, numbers with a whole exponent, and bases with optional coefficients and exponents that are decimals or such fractions) and brackets with whole non-zero exponents, nested to any depth, joined by any number of blanks, by '*' or '/' with or without blanks, or by nothing before a bracket, are read as the product of what is written, where a stroke inverts the next factor or bracket and nothing else. Blanks may stand at both ends of the text and of each bracket. In strict mode the text is refused with RatioError or ProductError exactly if some chain, at any depth, has a quotient followed by a quotient or a product.", "quantifier": "all texts of the grammar, of any length and nesting, except a stroke without blanks directly before a digit (a fraction) and brackets whose exponent is not whole", "why_tests_cant": "Texts and nesting are unbounded, and each pattern is tried on the whole rest of the text.", "anchors": ["src/goats/core/symbolic.py:Parser.parse", "src/goats/core/symbolic.py:Parser._parse_operand", "src/goats/core/symbolic.py:OperatorFactory.parse", "src/goats/core/symbolic.py:OperandFactory._match_complex"]}
{"id": "C340", "title": "Coefficients of brackets", "statement": "A number or base written directly before a bracket multiplies the bracket, and an operator before it applies to the product of both.", "quantifier": "all factors, all brackets, with and without an operator before them", "why_tests_cant": "Brackets have unbounded contents.", "anchors": ["src/goats/core/symbolic.py:OperandFactory._match_complex", "src/goats/core/symbolic.py:Parser._parse_operand"]}
{"id": "C341", "title": "Blanks in expressions", "statement": "Two texts of the grammar with the same factors, brackets and signs give equal expressions, or are both refused, however many blanks they have between them, around signs, inside brackets and at the ends.", "quantifier": "all pairs of texts of the grammar that differ in blanks only", "why_tests_cant": "There are infinitely many ways to put blanks into a text.", "anchors": ["src/goats/core/symbolic.py:Parser._parse_operand", "src/goats/core/symbolic.py:OperatorFactory.__init__", "src/goats/core/symbolic.py:OperandFactory.parse"]}
{"id": "C342", "title": "Rational exponents of brackets", "statement": "A bracket whose contents are bases and brackets without numbers may have any exponent, decimal or fraction, that is not zero: the exponents of its bases are multiplied by it exactly, through any nesting, products and quotients.", "quantifier": "all texts of the grammar of C339 without numbers other than exponents, with arbitrary exponents of brackets", "why_tests_cant": "Nesting is unbounded and powers with fractional exponents are computed in floats for the coefficients.", "anchors": ["src/goats/core/symbolic.py:Parser._resolve_operations", "src/goats/core/symbolic.py:Operand.__pow__", "src/goats/core/symbolic.py:OperandFactory._match_complex"]}
{"id": "C343", "title": "Square roots in expressions", "statement": "'sqrt' before a factor or a bracket stands for its square root: the exponents of its bases are halved, the rest of the expression is read as without it, and the rule against repeated quotients still holds.", "quantifier": "all expressions of the grammar of C342 with 'sqrt' before any phrases and any blanks around it", "why_tests_cant": "Expressions, blanks and nesting are unbounded; the root is taken in floats.", "anchors": ["src/goats/core/symbolic.py:Parser._parse_operand", "src/goats/core/symbolic.py:Parser._evaluate", "src/goats/core/symbolic.py:OperatorFactory", "src/goats/core/symbolic.py:Operand.__pow__"]}
{"id": "C344", "title": "Removing the separators around a text", "statement": "strip_separators removes the pair of brackets around a text that is enclosed in one pair, and gives every other text unchanged.", "quantifier": "all texts", "why_tests_cant": "The first and the last bracket of a text need not belong together, whatever is between them.", "anchors": ["src/goats/core/symbolic.py:OperandFactory.strip_separators"]}
{"id": "C345", "title": "The dimension of a product of units", "statement": "In a metric system, the dimension of a product of integral powers of units is the product of the same powers of the dimensions that the table declares for the quantities of the units, in that system for its own units and in the other system for units particular to the other; there is a dimension exactly if some factor is a unit of that system (ValueError otherwise). Unit.dimensionless is true exactly if in each system there is such a factor and the exponents of every dimension add up to zero.", "quantifier": "all products of units of the package, photometric ones excepted, and both systems", "why_tests_cant": "The products are infinitely many, and factors of the two systems mix.", "anchors": ["src/goats/core/metric.py:Dimension.fromunit", "src/goats/core/metric.py:Dimensions.fromunit", "src/goats/core/metric.py:Unit.dimensionless"]}
{"id": "C346", "title": "A unit that has the dimension 1 is dimensionless", "statement": "Unit.dimensionless is true exactly if the unit has the dimension 1 in every system in which it has a dimension.", "quantifier": "all products of units of the package", "why_tests_cant": "The products are infinitely many, and some have a dimension in one system only.", "anchors": ["src/goats/core/metric.py:Unit.dimensionless", "src/goats/core/metric.py:Dimensions.fromunit"]}
{"id": "C347", "title": "Dimensions multiply as their units do", "statement": "If a unit is the product of two units, or the integral power of a unit, in whatever way they are written, and they have dimensions in a metric system, then its dimension there is the product of their dimensions, or the power of the dimension.", "quantifier": "all products of units of the package, photometric ones excepted, and both systems", "why_tests_cant": "The products are infinitely many, and each has many spellings.", "anchors": ["src/goats/core/metric.py:Dimension.fromunit"]}
