# Formal model of goats (Rocq/Coq 8.16)

## Approach

Each Python module gets a `*Model.v` file holding executable Gallina definitions, one per function, each with a comment citing the lines of `/repo` it models and naming every simplification. Exceptions are values (`Err e`), carrying the changed state where a partial change is visible. Proofs live in `*Proofs.v`. `*Props.v` files hold only the property theorems, each followed by `Print Assumptions` and an `Example` that meets the hypotheses. Independent specifications (what the property means in plain mathematics) live in `*Spec.v` or at the head of the Props file. `Py.v` models the parts of Python that all modules share (strings, exceptions, lists, rational numbers), `PyDict.v` ordered dictionaries.

Numbers: `fractions.Fraction` is modelled exactly by `Qc` (canonical rationals). Floats are modelled by exact rationals, or by reals where the code uses roots, logarithms or trigonometry, so rounding is outside the model; the one exception is `symbolic.py`, whose conversion of constants through binary64 is modelled exactly (`F64`), because it decides equality.

Recursion without a structural bound takes fuel. Either a theorem shows that enough fuel always exists (C33, C52, C61), or the fuel stands for Python's recursion limit and running out is the RecursionError the user sees (C186, C188).

Where the code violates the property, a `..._refuted` theorem gives the witness and a positive theorem (suffix `_partial` if it covers less than the property) says what does hold. Such properties have the status "partial".

Wrong programs: `seeded/LOG.jsonl` records every edit of the model that was tried, the claim it breaks and the theorems that failed to prove afterwards.

## Modules

- **Symbolic** — symbolic.py: terms, expressions, parser, printer, reduction. Proofs: SymbolicReduceProofs (reduction), SymbolicRx and SymbolicParseProofs (regular expressions, brackets), SymbolicChainProofs, SymbolicTermProofs, SymbolicExprProofs (printing and reading), SymbolicLawProofs (algebra). How: structural induction over terms and characters; canonical forms are shown unique.
- **Aliased** — aliased.py: groups, mappings, key maps, name maps. How: invariants over every history of operations, refinement to a plain map with an alias relation.
- **Iterables** — iterables.py: tables, connections, bijections, registries, unwrapping, slices, guards. How: induction over lists.
- **Numerical** — numerical.py and interpolation.py: nearest values, bounds, restriction, interpolation over rationals. How: induction over sorted lists, QcOrder for the order.
- **Spelling** — spelling.py: edits and suggestions, character by character. How: induction over words.
- **Metric** — metric.py, units: prefixes, base units, conversions, named units, unit expressions. MetricTables copies the tables. How: a potential on the graph of conversions; finite facts on the tables by computation.
- **System** — metric.py, systems: quantities, their definitions, norms, dimensions. How: computation on the tables lifted by monotonicity in the recursion limit; algebra of unit expressions by exponents.
- **Metadata** — metadata.py: operand rules, units, names, dimensions of results. How: case analysis over the rules, induction over name lists.
- **Measurable** — measurable.py: measuring and arithmetic of quantities. How: structural induction over nested arguments; homomorphism into dimensioned rationals.
- **Array** — variable.py and physical.py: array quantities, loading, subscripts, arithmetic, reductions. How: arrays as shape plus function on index lists; invariants of the lazy state.
- **Observing** — observing.py: contexts, constraints, interpolation of axes, reported parameters. How: state machine; induction over histories.
- **Runtime** — runtime.py: configuration files, definitions, evaluation of parameters. How: character-level parser; fuelled evaluator with a rank argument.
- **Source** — runtime.py: reading of the C source that declares parameters. How: character-level model of the regular expressions used; induction over lines.
- **Axis** — axis.py, index.py, indexers of eprem. How: case analysis over kinds of subscripts, induction over reference lists.
- **Eprem** — eprem/__init__.py and fundamental.py: elements, standardization, dimensions of computed quantities. How: tables by computation, fuelled recursion over the registry.
- **Computed** — computed.py and the functions of eprem: vectors, coordinates, rigidity, integrals, fluxes. How: real analysis with Coq.Reals; functions are models over R, so rounding is outside.
- **Observer** — observer.py: composition of observables, updates of the data source. How: state machine with exceptions that carry the state.
- **Files** — iotools.py and datafile.py: text files, search, caches of files, datasets. How: file system as a partial function of paths; histories of calls.
- **Parameters** — operational.py, constant.py, parameter.py and runtime comparison: arguments, options, constants. How: case analysis over values.
- **Observables** — observable.py and quantities of observers. How: state machine with caches; computation on the system tables.
- **Species** — plasma.py and fundamental.py. How: induction over symbols, tables by computation.
- **Variables** — variable.py Interface and datafile views, eprem variables. How: computation on the table of units, lifted to every array by scaling.
- **Views** — aliased.py views, equality, copies and name maps. How: a view as the list of names or a reference to the mapping; histories by simulation with the plain dictionary.
- **Display** — iterables.py display strings and displays, batch_replace, whole, class_attribute; displays of measurable.py, physical.py and constant.py. How: texts as lists of characters, symbolic execution of the format, induction over parts.
- **Ufunc** — variable.py, metadata.py: numpy's universal functions on array-like quantities (dispatch, operands, supported types, metadata of the result), equality and inequality, looking for a value. Units and their algebra are parameters; the amount of an element is its number times the size of its unit. How: the arrays come from the lemmas on products and sums of the Array module, the metadata by evaluating the table of operations for each combination of operand kinds.
- **Factory** — metadata.py: Operands, OperatorFactory, the reference table of operations, NameMixin.alias. How: an invariant over every history of calls that relates the shared objects of the factory to one operation per row of the table.
- **Physical** — physical.py: scalars, vectors, scalar(), arrays, numpy functions on arrays. How: case analysis on operands with induction over values; refinement between caching objects and plain values for every history.
- **Converter** — metric.py: Conversion objects and their caches, Converter and Quantity.convert, quotients and consistency of units, Dimensions, NamedUnit.systems, reduction(). How: an invariant over every history of calls that every cached object has the factor of the search; lemmas about the tables by computation.
- **Session** — runtime.py: Runtime with its caches and paths, SourceFile.get/format, BaseTypesH caches, ConfigurationC json. How: an invariant over every history of calls, with arbitrary file contents at each call, that every cache holds what the files contain at the current paths.
- **Terms** — symbolic.py: Term comparison, evaluation and styles; Expression differences, operators with text, apply; equality, product, ratio. How: induction over the ways of building an expression shows that all are canonical; the laws of reduction do the rest.
- **Containers** — iterables.py: Singleton, UniformMapping, ObjectRegistry with metadata, reset and copy over a heap of shared entries, CollectionMixin, Table with its cache of keys, get_nested_element, pop, RequiredAttrMeta, oftype. How: invariants over all histories of calls; for singletons, that under single inheritance the resolution order of an ancestor is a suffix.
- **Package** — runtime.py: Interface with the package's own tables (runtime.json, the parameters, constants and metadata of runtime.py, the groups of reference.py), generated from the sources. How: decimal numerals as a grammar with its value, and the reader proved sound and complete for it; meanings of parameters as an inductive relation, proved to be what evaluation reaches; finite facts about the tables (no shared names) by computation, and from them the names of the interface for every file through the general theorems about merging groups.
- **Subscript** — What subscripts of arrays and variables select: positions, ranges with any bounds and steps, `...` and `None`, the errors, the default names of axes, and sums of arrays with other sizes. How: a relational specification of basic indexing after numpy's documentation (`SubscriptSpec.v`), shown to determine its results and to agree with the model by induction on the list of subscripts.
- **AxisTarget** — the objects that are passed to axes, with the specification `index_of` of the index for which each stands. How: case analysis of the first object that stands for none, and the results about numerals of PackageProofs.
- **Distribute** — `measurable.parse_measurable(..., distribute=True)`. How: induction on the depth of the object, as for `measure`.
- **Restriction** — `interpolation.Restriction` with numpy's `moveaxis` and subscript by a sequence of integers, on arrays of any number of axes (shape and cells). How: the permutations of axes are computed for an axis at any place (`l ++ n :: r`), by induction on the lists before and after it; the composition with C75 gives C327.
- **Observed** — `observed.Quantity` with its caches. How: an invariant of the caches over all histories of use; the refuted parts are stated for every quantity and every text.
- **Amounts** — the conversion of array-like quantities (variable.py) with the package's own units (metric.py) in place of the abstract units of the Array modules. How: a machine of absolute amounts in which a conversion changes nothing but the unit; a simulation between it and the machine of values, with the factor of unit // unit from the Converter modules.
- **ListText** — `iterables.string_to_list` on arbitrary texts. How: stripping splits a text into removed and kept characters, splitting at commas is inverse to joining, and C305 characterises the numerals; both directions of an equivalence.
- **Float** — binary64 rounding, on which the refutations and the theorems about the package's own tables rest. How: integer arithmetic shows that the rounded quotient is the nearest integer, logarithms bound the exponent, and the relative error 2^-53 separates small fractions; the laws of C03, C06 and C10 then hold without hypotheses about floats.
- **Decimal** — decimal and scientific numerals in expressions. How: a numeral is specified by its digits and its value as digits times a power of ten; the pattern's first match is followed symbolically, including the matches that fail before the letter of the power is taken as a base; tokens are chained with the lemmas of C06.
- **Grammar** — the grammar of texts of expressions: factors, nested brackets, signs and blanks. How: a syntax of phrases and joints is printed to text with its blanks; the operator patterns are followed through any number of blanks and the operand patterns through any phrase that may follow; nested brackets by induction on phrases, with the outcome (terms or refusal) of C06; blanks are irrelevant because the meaning of a phrase does not mention them.
- **Dimension** — the dimensions of products of units. How: the loop over the factors keeps an expression in canonical form whose exponents are the sums of those that the factors bring (induction over the factors; the rows of the table are checked once by computation); the comparison with '1' holds exactly if all exponents are zero.

## Trusted base

- Coq 8.16.1's kernel (and, in the rebuild, coqchk). Proofs by `vm_compute` use the kernel's virtual machine; coqchk re-checks them without it.
- The reading of the Python code: each definition cites its lines. Python's own semantics (dictionaries keep insertion order, `sorted` is stable, `str.split`, `str.strip`, integer division, slices) are modelled in `Py.v`, `PyDict.v` and beside their use.
- NumPy is modelled by what the code uses of it: an array is a shape and a function from index lists to numbers; `numpy.asarray`, subscripts, `squeeze`, `mean`, broadcasting and element-wise operations are defined on that. SciPy's `simps` and interpolation are modelled by their formulas. netCDF4 and the file system are arbitrary functions given as arguments of the theorems.
- Axioms. No axiom is added. `Print Assumptions` gives "Closed under the global context" for all theorems named in MANIFEST.json except those of the real-number module (ComputedProps), which rest on the axioms of the standard library's real numbers:
  - `ClassicalDedekindReals.sig_not_dec`, `ClassicalDedekindReals.sig_forall_dec`, `FunctionalExtensionality.functional_extensionality_dep`: C55_decomposition_partial, C55_no_field, C124_radius, C127_rigidity, C127_monotone, C127_rest, C139_rate, C139_nonnegative, C139_uniform.
  - `ClassicalDedekindReals.sig_not_dec`, `ClassicalDedekindReals.sig_forall_dec`, `FunctionalExtensionality.functional_extensionality_dep`, `Classical_Prop.classic`: C56_angle_partial, C56_angle_actual, C56_side, C56_refuted, C56_undefined, C124_back_partial, C124_refuted, C125_round_trip_partial, C125_short, C125_refuted, C126_ranges_partial, C126_refuted, C128_reference, C128_radius, C128_charge, C130_exponential, C130_scale, C130_short, C136_interpolation, C136_power_law, C136_unchanged, C136_beyond, C137_uniform_partial, C137_floor, C137_no_energies, C137_refuted, C137_species_refuted, C138_nonnegative_partial, C138_refuted.
  - `ClassicalDedekindReals.sig_forall_dec`, `FunctionalExtensionality.functional_extensionality_dep`: C129_ratio, C129_scale, C131_mean, C131_isotropic, C131_additive, C132_average_partial, C132_scale, C132_refuted, C133_flux_partial, C133_refuted, C134_linear, C134_quadratic_partial, C134_additive, C134_refuted, C135_nonnegative_partial, C135_refuted.
- Libraries loaded transitively declare further standard axioms or sealed constants that no theorem here uses beyond the above: `Rdefinitions.RbaseSymbolsImpl.*`, `RinvImpl.*` (constants sealed by a module, with definitions), `ssrunder.Under_rel.*`.

## What is not modelled

Threads, performance, logging, plotting and text written to terminals. Rounding of binary64 outside `symbolic.py`. The definitions of the C source of EPREM itself.

The functions below are not cited by any definition of the model. Most are properties that return a field, `__str__`/`__repr__` methods, abstract methods, or constructors whose fields appear in the model as a record.

- `algebraic.py`: Orderable.__lt__(23-24), Orderable.__eq__(27-28), Orderable.__le__(31-32), Orderable.__gt__(35-36), Orderable.__ge__(39-40), Orderable.__ne__(43-44), Ordered.__lt__(68-70), Ordered.__eq__(73-75), Ordered.__le__(78-80), Ordered.__gt__(83-85), Ordered.__ge__(88-90), Ordered.__ne__(93-95), Additive.__add__(107-108), Additive.__radd__(111-112), Additive.__sub__(115-116), Additive.__rsub__(119-120), Multiplicative.__mul__(132-133), Multiplicative.__rmul__(136-137), Multiplicative.__truediv__(140-141), Multiplicative.__rtruediv__(144-145), Multiplicative.__pow__(148-149), Multiplicative.__rpow__(152-153), Base.__abs__(191-193), Base.__neg__(196-198), Base.__pos__(201-203), SupportsNeg.__neg__(216-217), Real.__sub__(231-233), Real.__rsub__(235-237), Quantity.__abs__(258-260), Quantity.__pos__(262-264), Quantity.__neg__(266-268), Quantity.__ne__(270-272), Quantity.__lt__(274-276), Quantity.__le__(278-280), Quantity.__gt__(282-284), Quantity.__ge__(286-288), Quantity.__add__(290-292), Quantity.__radd__(294-296), Quantity.__iadd__(298-300), Quantity.__sub__(302-304), Quantity.__rsub__(306-308), Quantity.__isub__(310-312), Quantity.__mul__(314-316), Quantity.__rmul__(318-320), Quantity.__imul__(322-324), Quantity.__truediv__(326-328), Quantity.__rtruediv__(330-332), Quantity.__itruediv__(334-336), Quantity.__pow__(338-340), Quantity.__rpow__(342-344), Quantity.__ipow__(346-348), Quantity.implement(351-353), Scalar.__int__(365-367), Scalar.__float__(369-371), Scalar.__round__(373-375), Scalar.__floor__(377-379), Scalar.__ceil__(381-383), Scalar.__trunc__(385-387)
- `aliased.py`: Group.supports(22-28), Group.__iter__(42-43), Group.__len__(45-46), Groups.__len__(120-122), Groups.__iter__(124-126), _MappingProtocol.as_dict(360-361), _MappingProtocol._flat_keys(364-365), _MappingProtocol.__getitem__(368-369), MappingView.__str__(391-393), MappingView.__repr__(395-399), Mapping.flat(594-596), Mapping.__iter__(605-606), Mapping.__str__(764-768), Mapping.__repr__(770-774), Mapping.keys(776-778), Mapping.values(780-782), NameMap.__str__(1009-1011), NameMap.__repr__(1013-1016), NameMap._display_items(1018-1024), NameMap.values(1030-1032), NameMap.items(1034-1036)
- `axis.py`: Indexer.__init__(21-29), Indexer.compute(36-38), Indexer.__str__(50-51), Quantity.__new__(95-99), Quantity.__init__(101-104), Quantity.unit(107-109), Quantity.__str__(165-167)
- `constant.py`: Assumption.__float__(33-35), Assumption.__int__(37-39), Option.__eq__(72-76)
- `datafile.py`: Viewer.__init__(22-23), Viewer.__iter__(25-26), Viewer.__len__(28-29), Viewer.get_members(32-34), Viewer.__str__(36-38), Axis.__str__(112-114), Axis.__repr__(116-120), ViewerFactory.__setitem__(181-183), ViewerFactory.__delitem__(185-187), Interface.__str__(270-271)
- `eprem/__init__.py`: Functions.get_method(291-299), Functions.get_name(301-303), Functions.get_unit(305-308), Functions._get_metadata(336-339), Observer.radius(765-767), Observer.theta(770-772), Observer.phi(775-777), Observer.time(780-782), Observer.shell(785-787), Observer.species(790-792), Observer.energy(795-797), Observer.mu(800-802), Observer.__str__(804-805)
- `fundamental.py`: MassValueError.__init__(302-303), MassValueError.__str__(305-306), _show_constants(324-332), _show_elements(335-337), show(340-352)
- `index.py`: Data.__str__(33-34), Quantity.__getitem__(57-59), Quantity.__len__(61-63), Quantity.values(66-68), Quantity.unit(71-73), Quantity.__str__(75-77), Quantity.__repr__(79-86), Quantity._as_string(88-109), Array.__new__(127-130), Array.__init__(132-139), Array.__array__(141-143)
- `iotools.py`: NonExistentPathError.__init__(35-36), NonExistentPathError.path(39-42), NonExistentPathError.__str__(44-45), ReadOnlyPathError.__init__(50-51), ReadOnlyPathError.__str__(53-54), ReadOnlyPath.write_text(91-92), TextFile.__init__(102-111), TextFile.lines(114-119), TextFile.path(122-124), TextFile.__str__(157-159), file_lines(162-166)
- `iterables.py`: naked(209-221), Displayable.display(243-243), DisplayString.format_map(283-284), ReprStrMixin.display(336-340), CollectionMixin.collect(477-479), Bijection.__init__(689-691), Bijection.__getitem__(693-695), ObjectRegistry.__len__(721-722), ObjectRegistry.__contains__(724-725), ObjectRegistry.values(870-872), ObjectRegistry.items(874-876), ObjectRegistry.__repr__(882-884), TableKeyError.__str__(889-892), TableValueError.__init__(898-899), AmbiguousValueError.__str__(905-906), MissingValueError.__str__(912-913), TableRequestError.__init__(919-920), AmbiguousRequestError.__str__(926-938), TableLookupError.__str__(944-953), Table.__init__(969-972), Table.show(974-1010), Connections.__contains__(1137-1139), Connections.__len__(1141-1143), Connections.__iter__(1145-1147), Connections.__str__(1195-1200), NothingType.__getitem__(1253-1255), NothingType.__call__(1257-1259), NothingType.__len__(1261-1263), NothingType.__contains__(1265-1267), NothingType.__iter__(1269-1274), NothingType.__next__(1276-1278), NothingType.__bool__(1280-1282), NothingType.__repr__(1284-1286), whole.__len__(1363-1364), whole.__contains__(1366-1367), whole.__str__(1375-1377), classproperty.__get__(1409-1411), isproperty(1414-1419), extract_single(1449-1455), Guard.__init__(1612-1614)
- `measurable.py`: Measurement.__init__(26-32), Measurement.data(35-37), Measurement.unit(40-42), Measurement.__len__(44-45), Measurement.__str__(55-57), Quantified.__init__(84-86), Quantified.data(89-91), Quantified.meta(94-98)
- `metadata.py`: Operands.types(123-127), Operands.__len__(141-143), Operands.__iter__(145-147), Operands.__str__(155-156), Operator.__init__(162-163), Operator.__str__(177-178), Operation.parameters(202-204), Operation.implemented(207-209), Operation.__eq__(358-365), OperatorFactory.parameters(397-399), suppress(480-486), restrict(489-500), Name._ufunc_sqrt(623-625), Name.__hash__(755-756), Name.__contains__(758-759), Name.__iter__(761-762), Name.__len__(764-765), Name.__str__(775-776), Dimensions.__hash__(843-845), Dimensions.__len__(847-849), Dimensions.__getitem__(851-853), Dimensions.__str__(855-856), UnitMixin.unit(865-867), UnitMixin.convert(869-875), UnitMixin.apply_conversion(877-884), DimensionsMixin.dimensions(910-912), Interface.__init__(1055-1056)
- `metric.py`: _Property.__new__(786-809), _Property.system(811-813), _Property.__len__(816-818), _Property.__iter__(820-822), _Property.__str__(876-878), UnitParsingError.__init__(935-936), UnitParsingError.__str__(938-939), UnitConversionError.__init__(945-947), UnitConversionError.__str__(949-950), NamedUnit.__hash__(1430-1432), NamedUnit.__str__(1475-1477), Conversion.__str__(1829-1831), Unit.dimensions(2059-2063), Unit.decomposed(2094-2098)
- `observer.py`: Interface.context(102-108)
- `observing.py`: Parameters.__init__(29-30), Parameters.__pow__(68-72), Parameters.__len__(94-96), Parameters.__getitem__(98-100), Parameters.__str__(102-103), Context.observe(302-303), Context.__len__(337-339), Context.__iter__(341-343)
- `operational.py`: _HasDataAndUnit.data(27-28), _HasDataAndUnit.unit(32-33), Argument.unit(212-214), Argument.__repr__(225-227), Argument.__str__(229-233)
- `physical.py`: Array.data(250-258), Array._get_data_type(260-262), Array.__measure__(264-267), Array.__len__(277-283), Array.ndim(286-290), Array.shape(293-297), Array._get_base_attr(299-314), Array.__array_ufunc__(392-442), Array._ufunc_hook(444-454), Array.__array__(499-510), Array._array(513-515), Array._get_array(517-529), Array._load_array(531-571), Array._read_array(573-592), Array._copy_with(594-601), Array.implements(604-635)
- `plasma.py`: Species.m(42-44), Species.__str__(63-65)
- `runtime.py`: ConfigFile.__str__(576-578), Arguments.__init__(795-800), Arguments._build_mapping(802-819), Interface.basetypes(880-882), Interface.user(885-887), Interface.reference(890-892), Interface._get_argument(951-970), Interface._convert(972-980)
- `spelling.py`: SpellingError.__init__(6-12), SpellingError.__str__(14-15)
- `symbolic.py`: Patterns.__init__(37-76), Patterns.__getitem__(78-85), Patterns.__setitem__(87-89), Patterns.__delitem__(91-93), Operator.__init__(105-106), Operator.__str__(108-110), Operator.__hash__(112-114), Operator.__eq__(116-122), asterms(421-423), PartMatch.__new__(438-450), PartMatch.__init__(452-459), PartMatch._set_context(461-466), PartMatch._set_from_match(468-474), PartMatch._set_from_mapping(476-483), PartMatch.start(486-488), PartMatch.end(491-493), PartMatch.string(496-498), PartMatch.remainder(501-503), PartMatch.__bool__(505-507), PartMatch.__str__(509-515), PartFactory.parse(523-524), OperandFactory.isvalid(615-617), OperandFactory._get_match_method(865-871), OperandFactory._get_build_method(873-878), OperandFactory.fill_defaults(1036-1056), ParsingError.__init__(1072-1073), RatioError.__str__(1079-1085), ProductError.__str__(1091-1095), Iteration.__init__(1108-1116), Iteration._attrs(1119-1121), Iteration.copy(1123-1125), Iteration.__str__(1127-1129), Parser.__init__(1135-1180), Expression.__new__(1347-1356), Expression.__iter__(1444-1445), Expression.__len__(1447-1448), Expression.__str__(1467-1469)
- `utilities.py`: setattrval(66-114)
- `variable.py`: Array.data(60-68), Array.__len__(76-82), Array.__array__(318-329), Array._array(332-334), Array.implements(423-454), Quantity.unit(524-526), Quantity.dimensions(529-531), Quantity.__measure__(533-536)

## Plan and status per property

Each line says what is modelled, how it is proved and what is missing. Statements are in properties.jsonl, theorem names in MANIFEST.json.

- **C01 Reduced expressions are in canonical form** — SymbolicModel.reduce; sortedness/NoDup by induction over the combine fold and insertion sort. Status: proved. For every list of terms; every object built by the term constructor satisfies the hypothesis.
- **C02 Reduction preserves algebraic value** — Denotation of a term list as (total coefficient, exponent of each base); invariant of the combine fold; for integer exponents also as a rational value under an environment. Status: proved. As rational functions, and as values in any commutative monoid with powers.
- **C03 Equality of expressions is algebraic identity** — Uniqueness of canonical forms: sorted lists with the same exponent function are equal. Status: partial. Proved for expressions whose numbers are distinguished by conversion to float; equivalence and the direction identity -> equality hold without condition. The full statement is refuted: 1/3 and float(1/3) compare equal. Fully proved parts: C228.
- **C04 Expression arithmetic obeys the group laws of monomials** — Corollaries of C02+C03 for __mul__, __truediv__, __pow__. Status: partial. Commutativity and x/x = 1 hold without condition; the other laws hold whenever the exact result survives being written as text and re-read (printable). Refuted otherwise: the coefficient of Expression("a / 5") * "b" is not 1/5. Fully proved parts: C229.
- **C05 Raising a term to the zeroth power** — Faithful Operand.__init__ with "or 1" defaults; law for non-zero powers, refutation at 0. Status: partial. Proved for every non-zero integer power and for fractional powers of unit-coefficient terms. Refuted at power 0: (a^2)**0 is a.
- **C06 Printing and re-parsing an expression is the identity** — Character-level model of Term.format, Expression.format and the parser; round trip by induction over the term list; refutation for two-digit denominators. Status: partial. Proved for canonical expressions with one-digit denominators, float-exact coefficients and legal bases not starting with sqrt. Refuted for a^1/12, which reads back as 2 a.
- **C07 Bracket matching is exact** — find_bounds loop on character lists; correctness against a nesting-depth specification. Status: partial. Exact for every string in which no closing bracket precedes the first opening one; refuted on ")(a)".
- **C08 Ambiguous operator sequences are rejected in strict mode and only then** — State machine of the operator check; induction over the chain. Status: proved. For every written expression, with nested groups, in both modes; the first offending operator decides the error.
- **C09 Indexing an expression follows Python sequence rules** — Python list indexing with exceptions as values; case analysis; refutation for i < -len. Status: partial. Exact for every index in range and beyond; refuted below -len, where indices wrap a second time.
- **C10 Equal terms and expressions have equal hashes** — Hash modelled as an arbitrary function of the data the code hashes; consistency by C03. Status: partial. Proved for float-distinguishable numbers; refuted for "a / 3" and "1/3 a", which are equal with different hashed data.
- **C11 Every alias of a key reads the same value** — Mapping as list of (group, value) plus flat index. Status: proved. For every iteration order of Python sets, every list of disjoint keys.
- **C12 Writing or deleting through one alias affects all aliases of that key and nothing else** — Same; frame theorems. Status: proved. For every consistent mapping; every mapping reachable by any history is consistent (C12_reachable).
- **C13 A mutable aliased mapping refines a plain map with an alias relation under every history** — Invariant + refinement over operation lists. Status: proved. Outcome of every call and all observations agree with the abstract map after every history.
- **C14 Registering aliases is all-or-nothing** — Exceptions carry the state at raise; refutation plus the partial theorem for fresh aliases. Status: partial. Refuted: a failing call keeps the aliases before the first taken one. Proved: exactly that prefix stays; one alias is atomic; fresh aliases succeed.
- **C15 Alias groups stay pairwise disjoint when groups are merged** — Groups as lists of sets; invariant for add/discard; refutation for merge. Status: partial. add and discard are exact. merge is proved when each new group meets at most one existing group and vice versa; refuted otherwise (overlapping result, or ValueError). Fully proved parts: C230.
- **C16 Canonical names are fixed points of the name map** — NameMap model. Status: proved. Exact lookup for maps from names to aliases and for groups with reference names; construction always succeeds without repeated names.
- **C17 Strict table lookup returns the unique matching row** — Table model with rows as association lists. Status: proved. Exact, for every table of dictionaries and every request; on an empty table every key raises IndexError.
- **C18 Non-strict table lookup succeeds whenever a unique row is determined** — Same; refutation or exact characterisation. Status: partial. The exact condition for success is proved. Refuted: a request that determines one row raises AmbiguousRequestError when its last value is held by more rows than there are pairs.
- **C19 Weighted connections are reciprocal and first-wins** — Connections as association list; invariant by induction. Status: partial. First-wins is exact. Reciprocity is proved for distinct nodes and non-zero weights; refuted for a node connected to itself. Fully proved parts: C231.
- **C20 Bijections invert exactly** — Bijection model. Status: proved.
- **C21 Registering an object never overwrites another** — Registry model; refutation with witness, and positive theorem under freshness. Status: partial. Proved when no name ends in _<number>. Refuted: f_1, f, f overwrites f_1; two objects without a name share the key None.
- **C22 unique preserves first-occurrence order** — unique fold; spec by NoDup/In/first index. Status: proved.
- **C23 unwrap strips redundant nesting and nothing else** — Nested value type; structural recursion. Status: proved.
- **C24 Slices convert to the range Python would use** — slice_to_range vs spec of CPython slice.indices; refutation. Status: partial. Proved for stop None or 0 < stop <= length and positive step; refuted for stop 0 (treated as missing) and stop beyond the length.
- **C25 Guarded calls return the substitute for every guarded exception** — Class hierarchy as ancestor lists; exceptions as values. Status: partial. Proved for the declared type itself and for undeclared exceptions; refuted for every proper subtype: the guard raises KeyError.
- **C26 find_nearest returns the closest element** — argmin over lists of Q. Status: proved.
- **C27 Bounded nearest search respects the bound on sorted arrays** — Bounded walk loops. Status: proved.
- **C28 Bounding indices bracket the target** — find_1d_indices on sorted lists. Status: proved.
- **C29 Interpolation is exact at reference points and stays between its neighbours** — Piecewise-linear interpolation over Q. Status: proved. Exact rational arithmetic; scipy interp1d modelled from its documentation. Coordinates strictly increasing.
- **C30 Known words get no suggestions and suggestions are known words** — Character-level edits. Status: partial. Exact for edits other than an insertion at the end of the word. Refuted in general: such insertions are never tried, so a word one edit away can be left out, and the empty word gets no suggestion. Fully proved parts: C232.
- **C31 Unit ratios form a multiplicative cocycle** — NamedUnit scales in Q. Status: proved. Proved for all prefixes and base units. A prefix with scale 0 exists in the table (' '): dividing by such a unit raises ZeroDivisionError, which is why nonzero scales are assumed.
- **C32 Conversion factors are sound and reciprocal** — DFS over association-list graph, potential argument. Status: partial. The factor found by the search follows from the declared conversions and is the quotient of the sizes; the module's own table has one size for every unit. Refuted: au->min is 1, prefixes and coefficients are lost in the conversion by dimensions (J -> kg km^2 s^-2 is 1; 2 m -> cm is 100), deg/s -> 1/min -> rad/s differs from deg/s -> rad/s. Products of integral powers without coefficients: proved (partial). Fully proved parts: C233.
- **C33 The conversion search terminates** — Visited-set measure. Status: proved. Any declared table, including cyclic ones; every name is visited at most once; the whole conversion never exhausts its bound.
- **C34 Converting a quantity changes the numbers but not the measured amount** — Quantity as value list and unit with positive size. Status: partial. Proved for units with one name each: the amount is kept, converting back restores the quantity, and chains agree. Refuted for products: 3 J in kg km^2 s^-2 and 3 au in minutes are returned unchanged.
- **C35 Each unit symbol denotes the unit it was defined with** — Table of prefixes and units copied literally; finite check by vm_compute, refutation for collisions. Status: partial. General theorem for disjoint tables; the module's tables satisfy it for every name but 'cd', which denotes the centiday (refuted). Fully proved parts: C234.
- **C36 Operand-type support: suppression wins** — Operation.supports with an abstract subclass relation. Status: partial. Proved for histories whose suppressed rules are ungrouped and as long as the operand types; refuted otherwise (a shorter rule suppresses by prefix, suppress() rejects everything, groups are read as unions).
- **C37 Arithmetic on quantities is dimensionally sound** — Quantified.implement with units as reduced expressions; homomorphism into dimensioned rationals. Status: partial. Sums need equal units and keep the unit; numbers keep the unit. Products, quotients, powers proved for units whose decomposition has the right size and whose result survives printing. Refuted: V A and ohm A get the same unit; degrees may be added to plain numbers. Fully proved parts: C235, C236.
- **C38 Merging dimensions is an associative ordered union** — merge = unique of append. Status: proved.
- **C39 Equality of dimensions distinguishes axis order** — eq modelled branch by branch; refutation + characterisation. Status: partial. Axis order is not distinguished; equality is a permutation test for distinct axes, not symmetric with repeats.
- **C40 Names of composite quantities spell the operation in operand order** — Name operator on string lists. Status: partial. Proved for different names, numbers and strings on either side; same names pair diagonally; 1/name is name; reflected lists swap.
- **C41 Measuring keeps every number in order and one unit** — parse_measurable on nested values; structural recursion. Status: partial. Proved for every nesting the documentation lists, and conflicting units are rejected. Refuted: measure(1, [2, 3]) loses 2 and 3; 90 deg is measured as 90. Fully proved parts: C237.
- **C42 A failed in-place operation leaves the quantity unchanged** — Exceptions carry state; refutation. Status: partial. Refuted: every in-place operation that can be evaluated replaces the data and then raises ValueError. Proved: an operation whose evaluation raises changes nothing.
- **C43 Lazy loading and caching of arrays is invisible** — Array state machine; invariant. Status: proved.
- **C44 Copies of an array quantity convert units like the original** — Same; refutation with concrete witness. Status: partial. Refuted: 1 km converted to m, copied and converted back to km is 0.001 km. Proved: every history in which no copy of a converted quantity is converted again shows the same as uncached values.
- **C45 Products of arrays align axes by name** — N-d arrays as functions on index lists. Status: proved.
- **C46 An ellipsis expands to the missing axes** — List surgery. Status: partial. Refuted: with three axes, v[..., [0, 1]] returns everything and v[..., 0] raises ValueError. Proved: an ellipsis between slices; an ellipsis with lists that is last or stands for one axis. Fully proved parts: C238.
- **C47 Observations depend only on the current constraints** — Context state machine with caches; history independence. Status: proved. For every history of constrain calls, observations (also failing ones), inspections and name queries. Arrays, axis indices and scalars are arbitrary types; changes of unit made in place on shared computed quantities are outside these histories.
- **C48 User constraints override defaults** — fold over constrain calls. Status: proved.
- **C49 Available names follow the constraints** — Refutation by a two-step history. Status: partial. Refuted: available names are computed once, at the first query, and constrain does not reset them. Proved: they are right at the first query.
- **C50 Configuration files round-trip** — Character-level line parser; round trip. Status: partial. Refuted: a line with two equals signs (such as in a comment at its end), a line of blanks or an indented comment makes the whole file unreadable. Proved: all files of well-formed lines are read exactly, and exactly the files with such a bad line are rejected.
- **C51 Blanks around the equals sign are insignificant** — Refutation. Status: partial. Refuted: blanks before the equals sign become part of the key, so the line does not define the parameter. Proved: blanks around the value are insignificant.
- **C52 Parameter evaluation terminates with the arithmetic value of its definition** — Fuelled evaluator over definition environments, rank argument for termination. Status: partial. Refuted: a sum that is zero raises TypeError, sums of three terms lose the third, 0.0 for an integer parameter raises TypeError, and the minus sign of 1e-3 is read as a difference. Proved: evaluation terminates with the arithmetic value for acyclic definitions made of numerals, names, members, products and at most one sum of differences, without zeros, negative exponents or fractional exponents.
- **C53 Axis indexing covers the axis and stays in range** — Indexer model. Status: partial. Refuted: slices with negative numbers are rejected, empty selections raise IndexError, and numbers between -1 and 0 are accepted as 0. Proved: no arguments, explicit integers, non-negative slices, and that the result is always within the axis. Fully proved parts: C239.
- **C54 Functions receive each dependency under its own parameter name** — Method.parse; refutation + sufficient condition. Status: partial. Refuted: all arrays are passed before all numbers, so a function with a number before an array gets them swapped, and values of other kinds are dropped so that later ones take their place. Proved when arrays come first, also with a variable number of last arguments. Fully proved parts: C240.
- **C55 Parallel and perpendicular velocity decompose the speed** — Reals (Coq.Reals, its axioms listed). Status: partial. Proved in exact arithmetic; refuted in binary64, where flow along the field (0, 1, 5) has a perpendicular component that is not a number. Missing: a bound on the rounding error.
- **C56 The flow angle is the angle between the fields** — Reals; refutation + what is computed instead. Status: partial. Refuted: the arguments of the parallel velocity are swapped, so the cosine is divided by the speed once more. Proved for unit speed and perpendicular vectors, with what is computed in general. Fully proved parts: C241.
- **C57 Species symbols identify the element of the given mass** — Table copied literally; finite checks. Status: partial. Refuted: an element is taken for an earlier one of the same rounded mass (calcium for argon, cobalt for nickel, polonium for bismuth, curium for berkelium, dubnium for bohrium). Proved for all masses and integral charges with the first element of that rounded mass. Fully proved parts: C258.
- **C58 Dimensions of a computed quantity** — Fuelled recursion over registry; set characterisation. Status: partial. Refuted: what any nested function removes is removed from the result even if another dependency has it. Proved: the exact set for all registries, dataset order, termination, and composition when removed dimensions belong to no other dependency. Fully proved parts: C242.
- **C59 Standardised unit strings group the denominator once** — Character-level split. Status: proved.
- **C60 An observer is observable exactly for names it can compose** — observes model. Status: partial. Refuted for powers and products without an operator, which are refused, and for names with brackets in expressions. Proved in general for what is accepted, and for written expressions with a quotient or a product. Fully proved parts: C243.
- **C61 Parsing terminates on every string** — SymbolicModel, structural induction over terms and characters; canonical forms are shown unique. Status: proved. The recursion of the modelled parser is bounded by the text length on every string.
- **C62 Copies of an aliased mapping are indistinguishable from the original** — AliasedModel, invariants over every history of operations, refinement to a plain map with an alias relation. Status: proved.
- **C63 Merging two aliased mappings reads the right operand first** — AliasedModel, invariants over every history of operations, refinement to a plain map with an alias relation. Status: proved.
- **C64 Aliases given inside the values name their entry** — AliasedModel, invariants over every history of operations, refinement to a plain map with an alias relation. Status: proved.
- **C65 Squeezing replaces singleton interior mappings by their value** — AliasedModel, invariants over every history of operations, refinement to a plain map with an alias relation. Status: proved.
- **C66 Inverting a name map lists exactly the aliases of each name** — AliasedModel, invariants over every history of operations, refinement to a plain map with an alias relation. Status: proved.
- **C67 Aliases taken from a collection of groups** — AliasedModel, invariants over every history of operations, refinement to a plain map with an alias relation. Status: proved.
- **C68 Assigning through a tuple of names keeps every name in one group** — AliasedModel, invariants over every history of operations, refinement to a plain map with an alias relation. Status: partial. Proved when no name of the tuple is present; refuted otherwise: the tuple is stored as a second group containing the same name.
- **C69 Abbreviated display shows at most the requested number of values** — IterablesModel, induction over lists. Status: partial. Proved for n >= 1; refuted for n = 0, where everything is shown.
- **C70 Transposing a table twice restores it** — IterablesModel, induction over lists. Status: proved.
- **C71 Distribution pairs every left with every right value** — IterablesModel, induction over lists. Status: proved.
- **C72 Cached instances: one object per key** — IterablesModel, induction over lists. Status: proved.
- **C73 Table search finds exactly the rows with a value** — IterablesModel, induction over lists. Status: proved.
- **C74 Adjacencies agree with weights** — IterablesModel, induction over lists. Status: proved.
- **C75 Restricting a coordinate keeps exactly its bounding elements** — NumericalModel, induction over sorted lists, QcOrder for the order. Status: partial. Exact for strictly increasing coordinates; refuted for a repeated coordinate, which leaves an empty restriction.
- **C76 Targets outside the reference coordinates** — NumericalModel, induction over sorted lists, QcOrder for the order. Status: proved.
- **C77 Interpolation over a two-dimensional coordinate is row-wise** — NumericalModel, induction over sorted lists, QcOrder for the order. Status: partial. Proved when the target lies strictly between coordinates of every row; refuted when it equals a coordinate of some row: one cell of the array is returned instead of one per row.
- **C78 find_nearest locates elements of multi-dimensional arrays** — NumericalModel, induction over sorted lists, QcOrder for the order. Status: proved.
- **C79 Interpolation along an axis other than the first** — NumericalModel, induction over sorted lists, QcOrder for the order. Status: partial. Refuted in general: with axis 1 and a one-dimensional reference, as the eprem interface passes for mu, every target that is not a coordinate raises.
- **C80 Spell-check outcomes by mode** — SpellingModel, induction over words. Status: partial. Raising is exact; truth mode is refuted: it is true for every word that resembles no known word. Fully proved parts: C244.
- **C81 The known subset of candidates** — SpellingModel, induction over words. Status: proved.
- **C82 Declared conversions are found** — MetricModel, a potential on the graph of conversions; finite facts on the tables by computation. Status: proved. General theorem for any table of nonzero factors, and instance for the module's table.
- **C83 A unit name means the same in every history** — MetricModel, a potential on the graph of conversions; finite facts on the tables by computation. Status: partial. Proved for tables in which every unit's own name and symbol denote it; refuted for the module's table by 'cd' (candela).
- **C84 Equal units are interchangeable** — ConverterModel, an invariant over every history of calls that every cached object has the factor of the search; lemmas about the tables by computation. Status: partial. Proved: a unit is equal to itself, to every other spelling of the same product of powers, and to units that differ by the terms # and 1 only. Refuted: equality of size (au == min, J == kg km^2 s^-2, V == ohm), transitivity, and kJ == N m raises.
- **C85 A conversion that does not exist is reported as None** — MetricModel, a potential on the graph of conversions; finite facts on the tables by computation. Status: partial. Refuted for unknown names, which raise UnitParsingError; None is returned exactly when the strict conversion raises UnitConversionError.
- **C86 Decomposition does not depend on set order** — MetricModel, a potential on the graph of conversions; finite facts on the tables by computation. Status: proved. Checked by the kernel for every unit of the tables.
- **C87 Every named unit has a dimension** — MetricModel, a potential on the graph of conversions; finite facts on the tables by computation. Status: partial. Every unit but the lux (any prefix), whose quantity is misspelled; for the lux the KeyError is proved.
- **C88 A copy of an operation supports the same operand types** — MetadataModel, case analysis over the rules, induction over name lists. Status: partial. The type and parameters are kept; refuted for the rules, which the copy loses.
- **C89 Metadata checks accept exactly consistent operands** — MetadataModel, case analysis over the rules, induction over name lists. Status: partial. check proved in full; agree raises IndexError if no operand has the attribute.
- **C90 Equality of operand sequences is equality up to order** — MetadataModel, case analysis over the rules, induction over name lists. Status: partial. Proved without repeats; refuted with repeats ([1,1] == [1,2] but not conversely).
- **C91 Sums keep dimensions and need equal axes** — MetadataModel, case analysis over the rules, induction over name lists. Status: proved.
- **C92 Names tell results apart** — MetadataModel, case analysis over the rules, induction over name lists. Status: partial. One operation is readable from the name; (a+b)*c and a+(b*c) have the same name.
- **C93 An object that is called measurable can be measured** — MeasurableModel, structural induction over nested arguments; homomorphism into dimensioned rationals. Status: partial. Proved for every documented nesting; refuted for the empty list and two others.
- **C94 Indexing a measurement follows the rules of sequences** — MeasurableModel, structural induction over nested arguments; homomorphism into dimensioned rationals. Status: partial. Proved for -n <= i; refuted at i = -n-1, which gives the last value.
- **C95 Quantities are only compared in the same unit** — MeasurableModel, structural induction over nested arguments; homomorphism into dimensioned rationals. Status: proved.
- **C96 Arithmetic on quantities does not depend on units created before** — MeasurableModel, structural induction over nested arguments; homomorphism into dimensioned rationals. Status: partial. Refuted: after metric.Unit("m"), 3 m times 2 has the unit "2 m" and sums raise. Proved: if only units of quantities were created, every unit supports their arithmetic.
- **C97 Subscripting an array quantity by positions and ranges keeps every axis** — ArrayModel, arrays as shape plus function on index lists; invariants of the lazy state. Status: partial. Refuted: a step, a negative bound or a bound beyond the axis beside a position, or fewer subscripts than axes, raises ValueError. Proved: one position or plain range per axis.
- **C98 Subscripting an array quantity by lists selects their positions along each axis** — ArrayModel, arrays as shape plus function on index lists; invariants of the lazy state. Status: partial. Refuted: a range beside a list is read as the whole axis; a single list raises ValueError or, if empty, gives everything. Proved: lists and full ranges, one per axis, two axes or more.
- **C99 Sums of array quantities add elements at equal coordinates** — ArrayModel, arrays as shape plus function on index lists; invariants of the lazy state. Status: partial. Refuted: axes in opposite order are added without aligning them. Proved: equal axes in the same order; other axes are refused.
- **C100 Removing singular axes keeps the values** — ArrayModel, arrays as shape plus function on index lists; invariants of the lazy state. Status: proved.
- **C101 Averages along an axis** — ArrayModel, arrays as shape plus function on index lists; invariants of the lazy state. Status: partial. Refuted: negative axes raise ValueError. Proved: all other axes.
- **C102 Products of arrays of inconsistent sizes are refused** — ArrayModel, arrays as shape plus function on index lists; invariants of the lazy state. Status: partial. Refuted: with sizes 3 and 2 the product silently drops an element.
- **C103 Operations that metadata do not support fail uniformly** — MetadataModel, case analysis over the rules, induction over name lists. Status: proved.
- **C104 An observation reports the constants it depends on** — ObservingModel, state machine; induction over histories. Status: partial. Refuted: only the constants among the direct parameters of the named functions are reported; those of nested dependencies are not (as lambda0 for the acceleration rate). Proved: exactly the direct ones are reported, with the values used.
- **C105 Interpolated axes are not subscripted again** — ObservingModel, state machine; induction over histories. Status: partial. Refuted: if every axis is interpolated (such as an off-grid time and radius of a quantity over time and shell), the result is subscripted again with the indices of the original axes. Proved when at least one axis is not interpolated.
- **C106 Constraints that take no part in an observation do not affect it** — ObservingModel, state machine; induction over histories. Status: proved.
- **C107 Constraints may be given under any alias** — ObservingModel, state machine; induction over histories. Status: partial. Refuted: constraints are kept in a plain dictionary, so a constraint under an alias of an axis or parameter is silently ignored. Proved for the radius.
- **C108 Comparing configuration files** — RuntimeModel, character-level parser; fuelled evaluator with a rank argument. Status: proved.
- **C109 Compile-time constants have the value of their definition** — RuntimeModel, character-level parser; fuelled evaluator with a rank argument. Status: partial. Refuted: factors that are not known constants are silently left out and factors that are zero count as one. Proved for products of known non-zero constants with integral exponents.
- **C110 Only non-empty values of known parameters matter** — RuntimeModel, character-level parser; fuelled evaluator with a rank argument. Status: proved.
- **C111 Cyclic definitions never give a value** — RuntimeModel, character-level parser; fuelled evaluator with a rank argument. Status: proved.
- **C112 The parameter interface uses the comment signs it is given** — RuntimeModel, character-level parser; fuelled evaluator with a rank argument. Status: partial. Refuted: the values come from a runtime object that is not given the comment signs. Proved for the default sign.
- **C113 A parameter that cannot be evaluated affects only itself** — RuntimeModel, character-level parser; fuelled evaluator with a rank argument. Status: partial. Refuted: all parameters are evaluated when the interface is created, so one bad definition makes all unavailable. Proved: the interface is created exactly when every parameter can be evaluated.
- **C114 Indexing an axis by value selects the nearest coordinate** — AxisModel, case analysis over kinds of subscripts, induction over reference lists. Status: proved.
- **C115 Axis values in an inconsistent unit are rejected** — AxisModel, case analysis over kinds of subscripts, induction over reference lists. Status: partial. Refuted: values in an inconsistent unit are used as if they were in the unit of the axis. Proved for the unit of the axis itself.
- **C116 Indices given to the axes of a dataset are within the axis** — AxisModel, case analysis over kinds of subscripts, induction over reference lists. Status: partial. Refuted: shell, coordinate and species axes accept every integer. Proved for whole axes and selections by value.
- **C117 The values of an index are the axis values at its points** — AxisModel, case analysis over kinds of subscripts, induction over reference lists. Status: partial. Refuted: integers select points but the values are those of the whole axis; selections by value carry the given values. Proved for the whole axis.
- **C118 An empty selection selects nothing** — AxisModel, case analysis over kinds of subscripts, induction over reference lists. Status: partial. Refuted: an empty range selects the whole of a coordinate axis and raises IndexError on others.
- **C119 Changing the unit of an axis converts its values and keeps its points** — AxisModel, case analysis over kinds of subscripts, induction over reference lists. Status: proved.
- **C120 Species are found by their symbols** — AxisModel, case analysis over kinds of subscripts, induction over reference lists. Status: proved.
- **C121 Standard unit strings stay as they are** — EpremModel, tables by computation, fuelled recursion over the registry. Status: partial. Refuted: a second set of brackets is added each time. Proved for units without a slash.
- **C122 Requesting a computed quantity in a unit converts it for the requester only** — EpremModel, tables by computation, fuelled recursion over the registry. Status: partial. Refuted: the unit is replaced in the shared, cached object and the numbers are not converted. Proved: other names are not affected.
- **C123 Resolving dimensions follows the dataset** — EpremModel, tables by computation, fuelled recursion over the registry. Status: proved.
- **C124 Cartesian components give back the position** — ComputedModel, real analysis with Coq.Reals; functions are models over R, so rounding is outside. Status: partial. Refuted at azimuth 3 pi / 2, which comes back as -pi / 2. Proved for all other positions off the poles.
- **C125 Conversion to spherical coordinates can be undone** — ComputedModel, real analysis with Coq.Reals; functions are models over R, so rounding is outside. Status: partial. Refuted: components below the machine epsilon are set to zero. Proved for all others.
- **C126 Spherical coordinates are in their ranges** — ComputedModel, real analysis with Coq.Reals; functions are models over R, so rounding is outside. Status: partial. Refuted: the azimuth is -pi / 2 for x = 0, y < 0. Proved otherwise.
- **C127 Rigidity follows the relativistic relation** — ComputedModel, real analysis with Coq.Reals; functions are models over R, so rounding is outside. Status: proved.
- **C128 The mean free path scales from its reference value** — ComputedModel, real analysis with Coq.Reals; functions are models over R, so rounding is outside. Status: proved.
- **C129 The density ratio is relative to the first time** — ComputedModel, real analysis with Coq.Reals; functions are models over R, so rounding is outside. Status: proved.
- **C130 The divergence of the flow is the decay rate of the density** — ComputedModel, real analysis with Coq.Reals; functions are models over R, so rounding is outside. Status: proved.
- **C131 The isotropic distribution is an average** — ComputedModel, real analysis with Coq.Reals; functions are models over R, so rounding is outside. Status: proved.
- **C132 The average energy lies between the least and greatest energies of the particles** — ComputedModel, real analysis with Coq.Reals; functions are models over R, so rounding is outside. Status: partial. Refuted: the mass of the proton is used for all species. Proved for protons.
- **C133 The flux is that of particles of the given mass** — ComputedModel, real analysis with Coq.Reals; functions are models over R, so rounding is outside. Status: partial. Refuted: the mass of the proton is used for all species. Proved for protons.
- **C134 The fluence integrates the flux over time** — ComputedModel, real analysis with Coq.Reals; functions are models over R, so rounding is outside. Status: partial. Refuted for polynomials of degree two at an even number of times. Proved for degree one, and degree two at an odd number of times. Fully proved parts: C245.
- **C135 The fluence of a positive flux is not negative** — ComputedModel, real analysis with Coq.Reals; functions are models over R, so rounding is outside. Status: partial. Refuted: weights are negative when a time step is more than twice its neighbour. Proved when steps differ by at most a factor of two.
- **C136 Spectra are continued to the bound by a power law** — ComputedModel, real analysis with Coq.Reals; functions are models over R, so rounding is outside. Status: proved.
- **C137 The integral of a uniform spectrum is its height times its width above the bound** — ComputedModel, real analysis with Coq.Reals; functions are models over R, so rounding is outside. Status: partial. Refuted: bounds at or above the greatest energy raise IndexError, and with several species spectra are continued below their least energy. Proved for one species and bounds below the greatest energy.
- **C138 The integral flux of a positive spectrum is not negative** — ComputedModel, real analysis with Coq.Reals; functions are models over R, so rounding is outside. Status: partial. Refuted: the spectrum E^-2 at 1, 4, 16 has a negative integral above 2. Proved for bounds below the spectrum or in it and gentle steps.
- **C139 The rate of acceleration depends on the shells ahead and behind** — ComputedModel, real analysis with Coq.Reals; functions are models over R, so rounding is outside. Status: proved.
- **C140 Unknown names raise KeyError with a suggestion** — ObserverModel, state machine with exceptions that carry the state. Status: partial. Refuted: the words of the spell checker are tuples, so nothing is suggested, and the second unknown name raises TypeError. Proved for the first unknown name.
- **C141 Every name in the observing context is accessible** — ObserverModel, state machine with exceptions that carry the state. Status: partial. Refuted: another name of a constraint gives None. Proved for all names of quantities and the keys of constraints.
- **C142 Accepted names stand for products of powers of observable quantities** — ObserverModel, state machine with exceptions that carry the state. Status: proved.
- **C143 The unit of a composed quantity is the product of the powers of the units** — ObserverModel, state machine with exceptions that carry the state. Status: partial. Refuted: the exponent of the first term is ignored. Proved when that exponent is 1.
- **C144 An updated observer uses the latest source and configuration** — ObserverModel, state machine with exceptions that carry the state. Status: partial. Refuted: sources without data are silently ignored and configuration files stay in the old directory. Proved when the source has data, for the data and for a configuration given in the same update.
- **C145 Updates keep the metric system** — ObserverModel, state machine with exceptions that carry the state. Status: partial. Refuted: every successful update sets the system to mks. Proved for the first context.
- **C146 Failed updates have no effect** — ObserverModel, state machine with exceptions that carry the state. Status: partial. Refuted: the observer keeps the failing source. Proved: its observing context does not change.
- **C147 Inline comments are removed from lines of text** — FilesModel, file system as a partial function of paths; histories of calls. Status: partial. Refuted for signs of which one ends with the beginning of another: the order matters. Proved for all other lists of signs; that no sign is left is proved for all lists. Fully proved parts: C261.
- **C148 Searching directories finds the first that has the file** — FilesModel, file system as a partial function of paths; histories of calls. Status: partial. Refuted: a path that does not exist raises. Proved when all paths exist.
- **C149 A file is found by the first template that fits** — FilesModel, file system as a partial function of paths; histories of calls. Status: proved.
- **C150 Extracting from a text file gives the value in the last matching line for each key** — FilesModel, file system as a partial function of paths; histories of calls. Status: proved.
- **C151 There is one dataset object for each path** — FilesModel, file system as a partial function of paths; histories of calls. Status: partial. Refuted: strings and path objects give two objects, and another class gets the object of the first. Proved for equal arguments and for one class. Fully proved parts: C246.
- **C152 The choice of viewers for a dataset concerns this dataset** — FilesModel, file system as a partial function of paths; histories of calls. Status: partial. Refuted: the viewers belong to the class, so other datasets change as well, and a dataset that was read keeps its viewer. Proved for datasets of other types or already read, and for unread datasets.
- **C153 Datasets of unknown types are refused** — FilesModel, file system as a partial function of paths; histories of calls. Status: partial. Refuted: the error is created and not raised; every later use raises TypeError.
- **C154 The variables of a dataset are available under all their names** — FilesModel, file system as a partial function of paths; histories of calls. Status: partial. Refuted when two variables have names of one quantity: the later hides the other. Proved for all other datasets.
- **C155 Paths for reading cannot be written** — FilesModel, file system as a partial function of paths; histories of calls. Status: partial. Refuted: the object that is returned is an ordinary path. Proved that it exists.
- **C156 The constants of a header file are its definitions** — SourceModel, character-level model of the regular expressions used; induction over lines. Status: partial. Refuted for names with digits or small letters (skipped) and for comments after the value (which become part of it). Proved for other definitions and for the choice of the last one. Fully proved parts: C260.
- **C157 A call that reads a parameter gives its name, function, other name and arguments** — SourceModel, character-level model of the regular expressions used; induction over lines. Status: partial. Refuted for text with a comma, which is cut. Proved for all other calls.
- **C158 Defaults that name an array are replaced by its value** — SourceModel, character-level model of the regular expressions used; induction over lines. Status: partial. Refuted: arrays of several values or with signs are not read, the alias of a parameter with an array default is lost, and one call without a default makes the whole file fail. The rest is proved.
- **C159 Converting loaded parameters to the standard form and back changes nothing** — SourceModel, character-level model of the regular expressions used; induction over lines. Status: proved. Proved for every file that can be read.
- **C160 Definitions come from the file the user names** — SourceModel, character-level model of the regular expressions used; induction over lines. Status: partial. Refuted: a directory without the file silently gives the package's definitions. The other cases are proved.
- **C161 An argument has the values it was given** — ParametersModel, case analysis over values. Status: partial. Refuted for a single text, which is taken for the sequence of its characters, and for sequences of options without a unit, which are refused although documented. The rest is proved. Fully proved parts: C247.
- **C162 Casting an argument gives its number** — ParametersModel, case analysis over values. Status: partial. Refuted for text of two or more characters, which int() refuses, and for float() of a number without a unit; one-character texts and all other arguments are proved. Fully proved parts: C247.
- **C163 The truth of an argument** — ParametersModel, case analysis over values. Status: partial. Refuted for several values with a unit, whose truth raises ValueError; the rest is proved. Fully proved parts: C248.
- **C164 Elements of an argument keep its unit** — ParametersModel, case analysis over values. Status: partial. Refuted for arguments with one value, which have no elements, and for indices from -2n to -n-1, which give elements. The rest is proved.
- **C165 Equal arguments** — ParametersModel, case analysis over values. Status: partial. Refuted: equality is not symmetric between arguments with and without unit, and raises ValueError for several values with units and when an option is compared with as many. Proved for single values with units, for options, and for arguments of different kinds that cannot be equal.
- **C166 A parameter is available under each of its names** — ParametersModel, case analysis over values. Status: proved.
- **C167 Converting a named quantity keeps its amount and name** — ParametersModel, case analysis over values. Status: partial. Refuted: a converted quantity has no name. Values, units, elements and casts are proved. Fully proved parts: C249.
- **C168 A constant is the same amount in both systems** — ParametersModel, case analysis over values. Status: partial. Refuted for the first radiation constant, whose cgs value is too small by the factor 10^11. Proved for the other constants; the electric constants are different quantities in the two systems and are excluded. Fully proved parts: C259.
- **C169 The files given are the files compared** — ParametersModel, case analysis over values. Status: partial. Refuted unless the current directory is the common ancestor of the given files; a single file is sought as the current directory.
- **C170 The comparison shows the differences** — ParametersModel, case analysis over values. Status: partial. Refuted: files without differences make the command raise StopIteration, and generating into an existing file keeps its old values. The rest is proved. Fully proved parts: C250.
- **C171 Observables and observations behave as values** — ObservablesModel, state machine with caches; computation on the system tables. Status: partial. Proved for every history if comparing units always gives an answer and equal units are the same unit. Refuted otherwise: whether N m can be requested of a quantity in J, and which of two equal units it then shows, depends on whether its unit was looked at before.
- **C172 Observing in a unit converts the values** — ObservablesModel, state machine with caches; computation on the system tables. Status: proved.
- **C173 The name of a metric system selects its unit** — ObservablesModel, state machine with caches; computation on the system tables. Status: partial. Refuted for capital letters: 'MKS' is recognized as a system but raises KeyError. Proved for the names as the table of units spells them.
- **C174 An observation has the unit its observable reports** — ObservablesModel, state machine with caches; computation on the system tables. Status: partial. Refuted: an observable whose reported unit is inconsistent with its data, such as an expression whose first exponent is not 1 (C143), raises ValueError. Proved for consistent units.
- **C175 An observation gives its axes and assumptions by name** — ObservablesModel, state machine with caches; computation on the system tables. Status: partial. Refuted for the other names of an axis, which are read as units, and for observations made without assumptions, which raise TypeError. Proved for the names under which axes and assumptions are stored. Fully proved parts: C251.
- **C176 Equal observables** — ObservablesModel, state machine with caches; computation on the system tables. Status: partial. Refuted: the names are not compared, so different quantities are equal. Proved for units, axes and parameters.
- **C177 The array of an observation drops only single-valued axes** — ObservablesModel, state machine with caches; computation on the system tables. Status: proved.
- **C178 The charge of a species is the balance of its signs** — SpeciesModel, induction over symbols, tables by computation. Status: partial. Proved for symbols without signs before the end, which includes all elements. Refuted for signs inside the symbol, which hide those at its end.
- **C179 The mass of a species is that of its element** — SpeciesModel, induction over symbols, tables by computation. Status: proved.
- **C180 Symbol, mass and charge describe the same species** — SpeciesModel, induction over symbols, tables by computation. Status: partial. Proved for every element that is not after one of the same rounded mass in the table and every integral charge. Refuted otherwise: the mass and charge of Ca++ give Ar++.
- **C181 Properties of a species do not depend on the order of asking** — SpeciesModel, induction over symbols, tables by computation. Status: proved.
- **C182 A species that can be created can be read** — SpeciesModel, induction over symbols, tables by computation. Status: partial. Refuted: a mass or a charge alone is accepted, but asking for the rest raises AttributeError or TypeError; a given mass has no unit. The ValueError is proved.
- **C183 Units of mechanics convert coherently between the systems** — SystemModel, computation on the tables lifted by monotonicity in the recursion limit; algebra of unit expressions by exponents. Status: partial. Every mechanical row except power density and thermal conductivity, whose units cannot be converted, and radioactivity (Bq to Ci).
- **C184 Electric units convert coherently between the systems** — SystemModel, computation on the tables lifted by monotonicity in the recursion limit; algebra of unit expressions by exponents. Status: partial. Charge, current, potential, conductance, impedance, inductance and energy are coherent; capacitance and displacement are not (refuted).
- **C185 The unit of a quantity has the dimension of the quantity** — SystemModel, computation on the tables lifted by monotonicity in the recursion limit; algebra of unit expressions by exponents. Status: partial. Every row except the three luminous ones, whose unit cd reads as centiday, and permittivity, whose declared dimension has one power of current too few (refuted for each).
- **C186 Quantities and systems are found by name, whatever its letter case** — SystemModel, computation on the tables lifted by monotonicity in the recursion limit; algebra of unit expressions by exponents. Status: partial. Look-ups succeed for every spelling; an unknown word never raises KeyError but recurses without end, for every word of letters (refuted). Fully proved parts: C252.
- **C187 Searching a system for a unit** — SystemModel, computation on the tables lifted by monotonicity in the recursion limit; algebra of unit expressions by exponents. Status: partial. A dimension given as text is found only when written as in the table, and J finds a unit of time (refuted). Fully proved parts: C253.
- **C188 The norm of a unit measures the same quantity in each system** — SystemModel, computation on the tables lifted by monotonicity in the recursion limit; algebra of unit expressions by exponents. Status: partial. For products of non-photometric units with integral powers of total size at most 2^40 whose quantities do not all cancel; otherwise the norm recurses for ever (refuted); numbers are dropped and mixed systems lose their dimension (refuted).
- **C189 Equality and equivalence of quantities** — SystemModel, computation on the tables lifted by monotonicity in the recursion limit; algebra of unit expressions by exponents. Status: partial. Equality in full; equivalence outside the four mismatched rows, where luminous intensity is equivalent to time (refuted). Fully proved parts: C254.
- **C190 The quantities that have a dimension** — SystemModel, computation on the tables lifted by monotonicity in the recursion limit; algebra of unit expressions by exponents. Status: partial. In full for the names 'mks' and 'cgs'; 'MKS' is refused although System('MKS') is accepted (refuted). Fully proved parts: C255.
- **C191 The variables of a dataset have the amounts of the file** — VariablesModel, computation on the table of units, lifted to every array by scaling. Status: partial. In full if the file states the unit in an attribute called 'units' and for masses in nucleons. Refuted if the attribute is called 'unit': values are converted but the unit shown is that of the file, because the attribute of the data object replaces the given unit; and refuted for charges in cgs, which are 100 times too large.
- **C192 Every variable of the dataset can be read** — VariablesModel, computation on the table of units, lifted to every array by scaling. Status: partial. Variables with a known unit can be read in both systems exactly if the axes fit. Refuted without a unit (TypeError) and without a system ('None' is taken for a unit).
- **C193 Variables do not depend on earlier requests** — VariablesModel, computation on the table of units, lifted to every array by scaling. Status: proved. Full.
- **C194 The general interface gives the variables of a dataset** — VariablesModel, computation on the table of units, lifted to every array by scaling. Status: partial. Refuted: the general interface asks for an attribute 'axes' that dataset variables do not have, so every known name raises AttributeError in every history.
- **C195 Two aliased mappings are equal exactly when every name has the same value** — ViewsModel, a view as the list of names or a reference to the mapping; histories by simulation with the plain dictionary. Status: proved. Exact for all consistent mappings (every reachable one is, C12). Aliases are not compared, see C196.
- **C196 Equal aliased mappings stay equal under the same calls** — ViewsModel, a view as the list of names or a reference to the mapping; histories by simulation with the plain dictionary. Status: partial. Proved for mappings with the same aliases. Refuted otherwise, because equality ignores aliases.
- **C197 Views of an aliased mapping show its current content** — ViewsModel, a view as the list of names or a reference to the mapping; histories by simulation with the plain dictionary. Status: partial. A new view is exact; a view of groups (aliased=True) follows every history; a view of names follows assignments to existing names. Refuted: new names are missing from an older view, and after a deletion reading its values raises KeyError. Fully proved parts: C256.
- **C198 A mapping made from keys has their names and groups** — ViewsModel, a view as the list of names or a reference to the mapping; histories by simulation with the plain dictionary. Status: partial. Proved for groups, tuples, aliased mappings and interior mappings with disjoint names. Refuted for dictionaries with plain values: AttributeError. Fully proved parts: C257.
- **C199 A name map is a mapping whatever has been done to it** — ViewsModel, a view as the list of names or a reference to the mapping; histories by simulation with the plain dictionary. Status: partial. Proved for new name maps. Refuted after inversion: iteration gives names that raise KeyError, a copy is not inverted, a second inversion raises TypeError.
- **C200 The text of a quantity shows its value, its unit and its name** — DisplayModel, texts as lists of characters, symbolic execution of the format, induction over parts. Status: proved. Proved for every text of the attributes; names are quoted twice in the text (once by the name, once by the display), which the theorems show.
- **C201 The text of an option shows its value, and its name if it has one** — DisplayModel, texts as lists of characters, symbolic execution of the format, induction over parts. Status: partial. Proved for named options (two blanks follow the colon). Refuted for options without a name: they show an empty name in quotes.
- **C202 Parts of a display are edited like a list** — DisplayModel, texts as lists of characters, symbolic execution of the format, induction over parts. Status: partial. Proved for separators that cannot overlap themselves and new parts that do not contain the separator. Refuted otherwise: appending to an empty display leaves a leading separator; a part that contains the separator becomes two.
- **C203 Collections of independent members are compared without their order** — DisplayModel, texts as lists of characters, symbolic execution of the format, induction over parts. Status: proved.
- **C204 Replacing several characters replaces each character of the text once** — DisplayModel, texts as lists of characters, symbolic execution of the format, induction over parts. Status: partial. Proved if no replacement contains a replaced character. Refuted otherwise: exchanging a and b in 'ab' gives 'aa'.
- **C205 Values of a class attribute are collected once per class that defines it** — DisplayModel, texts as lists of characters, symbolic execution of the format, induction over parts. Status: partial. Proved if a class that does not define the attribute does not inherit it either. Refuted otherwise: inherited values are repeated.
- **C206 Products and quotients of arrays compute physical amounts** — UfuncModel, the arrays come from the lemmas on products and sums of the Array module, the metadata by evaluating the table of operations for each combination of operand kinds. Status: proved.
- **C207 Sums of arrays add amounts and need units that add** — UfuncModel, the arrays come from the lemmas on products and sums of the Array module, the metadata by evaluating the table of operations for each combination of operand kinds. Status: proved.
- **C208 Negatives, absolute values, powers and roots compute amounts** — UfuncModel, the arrays come from the lemmas on products and sums of the Array module, the metadata by evaluating the table of operations for each combination of operand kinds. Status: proved. Numbers are rational, so the square root is stated for arrays whose elements have rational roots.
- **C209 Every numpy function of arrays is dimensionally sound or refused** — UfuncModel, the arrays come from the lemmas on products and sums of the Array module, the metadata by evaluating the table of operations for each combination of operand kinds. Status: partial. Proved: every function of two quantities without a rule raises MetadataError. Refuted for functions of one quantity: numpy.square (and reciprocal, sin, exp, ...) keeps the unit, so the amounts are wrong unless the unit has size 1.
- **C210 Arrays are ordered by amount** — UfuncModel, the arrays come from the lemmas on products and sums of the Array module, the metadata by evaluating the table of operations for each combination of operand kinds. Status: partial. Proved for equal units. Refuted otherwise: comparisons ignore units, 1 km < 2 m is true.
- **C211 Equal arrays have equal unit, axes and values** — UfuncModel, the arrays come from the lemmas on products and sums of the Array module, the metadata by evaluating the table of operations for each combination of operand kinds. Status: partial. Proved unless the axes are the same in a different order. Refuted then: such arrays compare equal although their values differ at named coordinates.
- **C212 Inequality is the negation of equality** — UfuncModel, the arrays come from the lemmas on products and sums of the Array module, the metadata by evaluating the table of operations for each combination of operand kinds. Status: partial. Refuted for all arrays of the same shape: != always raises MetadataError.
- **C213 Numbers scale arrays from either side** — UfuncModel, the arrays come from the lemmas on products and sums of the Array module, the metadata by evaluating the table of operations for each combination of operand kinds. Status: partial. Proved for numbers on the right and Python numbers on the left. Refuted: a numpy number or array on the left raises TypeError.
- **C214 Arithmetic never loses the unit** — UfuncModel, the arrays come from the lemmas on products and sums of the Array module, the metadata by evaluating the table of operations for each combination of operand kinds. Status: partial. Proved for results with an axis. Refuted for arrays without axes: the result is a plain number.
- **C215 Operations without a meaningful unit are refused** — UfuncModel, the arrays come from the lemmas on products and sums of the Array module, the metadata by evaluating the table of operations for each combination of operand kinds. Status: proved.
- **C216 Looking for a value tolerates rounding** — UfuncModel, the arrays come from the lemmas on products and sums of the Array module, the metadata by evaluating the table of operations for each combination of operand kinds. Status: partial. Proved: found iff it is an element, or lies between two elements and is near one. Refuted otherwise: a value that rounding moved just beyond the highest or lowest element is not found, and looking into an empty array raises ValueError.
- **C217 One set of rules per operation** — FactoryModel, an invariant over every history of calls that relates the shared objects of the factory to one operation per row of the table. Status: proved. Proved for every table without ambiguous names; the table of the module is shown unambiguous, and the rules set up for variables are shown to be those used for numpy's functions.
- **C218 The known operations** — FactoryModel, an invariant over every history of calls that relates the shared objects of the factory to one operation per row of the table. Status: proved. Proved.
- **C219 Every registered attribute is computed** — FactoryModel, an invariant over every history of calls that relates the shared objects of the factory to one operation per row of the table. Status: proved. Proved.
- **C220 Operations refuse what their rules refuse** — FactoryModel, an invariant over every history of calls that relates the shared objects of the factory to one operation per row of the table. Status: partial. Proved for operations with a callable. Refuted for casts and comparisons, whose rules are never consulted.
- **C221 The list of attributes** — FactoryModel, an invariant over every history of calls that relates the shared objects of the factory to one operation per row of the table. Status: partial. Proved: membership. Refuted: an attribute registered twice is listed twice.
- **C222 Functions without an operation** — FactoryModel, an invariant over every history of calls that relates the shared objects of the factory to one operation per row of the table. Status: proved. Proved.
- **C223 Reading an attribute of all operands** — FactoryModel, an invariant over every history of calls that relates the shared objects of the factory to one operation per row of the table. Status: proved. Proved.
- **C224 Searching operands** — FactoryModel, an invariant over every history of calls that relates the shared objects of the factory to one operation per row of the table. Status: proved. Proved.
- **C225 Slices of operands keep their reference** — FactoryModel, an invariant over every history of calls that relates the shared objects of the factory to one operation per row of the table. Status: partial. Proved for slices in which all operands have the attribute. Refuted otherwise: a slice forgets the reference and uses its own first operand.
- **C226 The names of a quantity** — FactoryModel, an invariant over every history of calls that relates the shared objects of the factory to one operation per row of the table. Status: proved. Proved.
- **C227 Naming an unnamed quantity** — FactoryModel, an invariant over every history of calls that relates the shared objects of the factory to one operation per row of the table. Status: partial. Proved with reset. Refuted without: the empty name stays.
- **C228 Equality of expressions is an equivalence that ignores the order of factors** — SymbolicModel, structural induction over terms and characters; canonical forms are shown unique. Status: proved. Proved for every float formatting.
- **C229 Products of expressions commute and powers compose** — SymbolicModel, structural induction over terms and characters; canonical forms are shown unique. Status: proved. Proved.
- **C230 Adding and discarding groups of aliases is exact** — AliasedModel, invariants over every history of operations, refinement to a plain map with an alias relation. Status: proved. Proved for every iteration order of sets.
- **C231 The first declared weight between two nodes wins** — IterablesModel, induction over lists. Status: proved. Proved.
- **C232 Known words pass the spell check and suggestions are known words** — SpellingModel, induction over words. Status: proved. Proved.
- **C233 Conversion factors between named units follow from the declared table** — MetricModel, a potential on the graph of conversions; finite facts on the tables by computation. Status: proved. Proved.
- **C234 In unambiguous tables a name denotes its unit** — MetricModel, a potential on the graph of conversions; finite facts on the tables by computation. Status: proved. Proved.
- **C235 Sums of quantities need equal units** — MeasurableModel, structural induction over nested arguments; homomorphism into dimensioned rationals. Status: proved. Proved for every table of units.
- **C236 Numbers scale quantities** — MeasurableModel, structural induction over nested arguments; homomorphism into dimensioned rationals. Status: proved. Proved for every table of units.
- **C237 Measuring refuses conflicting units** — MeasurableModel, structural induction over nested arguments; homomorphism into dimensioned rationals. Status: proved. Proved.
- **C238 An ellipsis among slices stands for all missing axes** — ArrayModel, arrays as shape plus function on index lists; invariants of the lazy state. Status: proved. Proved for slices; integers and lists after an ellipsis are in C46.
- **C239 Indices along an axis are within it** — AxisModel, case analysis over kinds of subscripts, induction over reference lists. Status: proved. Proved.
- **C240 Functions never run with missing or surplus arguments** — ComputedModel, real analysis with Coq.Reals; functions are models over R, so rounding is outside. Status: proved. Proved.
- **C241 The flow angle is on the right side of the field** — ComputedModel, real analysis with Coq.Reals; functions are models over R, so rounding is outside. Status: proved. Proved over the reals, with the exact cosine that is computed.
- **C242 The dimensions of a computed quantity follow its dependencies** — EpremModel, tables by computation, fuelled recursion over the registry. Status: proved. Proved.
- **C243 Asking whether a name is observable gives a sound answer** — ObserverModel, state machine with exceptions that carry the state. Status: proved. Proved.
- **C244 The spell check raises exactly for near misses** — SpellingModel, induction over words. Status: proved. Proved.
- **C245 Fluence is linear in the flux and exact for linear fluxes** — ComputedModel, real analysis with Coq.Reals; functions are models over R, so rounding is outside. Status: proved. Proved over the reals.
- **C246 A path always gives the same dataset** — FilesModel, file system as a partial function of paths; histories of calls. Status: proved. Proved.
- **C247 Physical arguments have their values and cast to numbers** — ParametersModel, case analysis over values. Status: proved. Proved.
- **C248 The truth of arguments** — ParametersModel, case analysis over values. Status: proved. Proved.
- **C249 Named quantities in their own unit and their elements** — ParametersModel, case analysis over values. Status: proved. Proved.
- **C250 The comparison of configurations shows every parameter** — ParametersModel, case analysis over values. Status: proved. Proved.
- **C251 Axes and assumptions of an observation are found by name** — ObservablesModel, state machine with caches; computation on the system tables. Status: proved. Proved.
- **C252 Quantities and systems are found in any letter case** — SystemModel, computation on the tables lifted by monotonicity in the recursion limit; algebra of unit expressions by exponents. Status: proved. Proved.
- **C253 Searching a system by unit or by quantity** — SystemModel, computation on the tables lifted by monotonicity in the recursion limit; algebra of unit expressions by exponents. Status: proved. Proved.
- **C254 Quantities are equal exactly if their names agree** — SystemModel, computation on the tables lifted by monotonicity in the recursion limit; algebra of unit expressions by exponents. Status: proved. Proved.
- **C255 A dimension finds its quantities** — SystemModel, computation on the tables lifted by monotonicity in the recursion limit; algebra of unit expressions by exponents. Status: proved. Proved for the names mks and cgs as the package writes them.
- **C256 Views of groups follow the mapping** — ViewsModel, a view as the list of names or a reference to the mapping; histories by simulation with the plain dictionary. Status: proved. Proved.
- **C257 A mapping made from keys has their groups** — ViewsModel, a view as the list of names or a reference to the mapping; histories by simulation with the plain dictionary. Status: proved. Proved.
- **C258 Masses of elements give their symbols** — EpremModel, tables by computation, fuelled recursion over the registry. Status: proved. Proved.
- **C259 Constants are found in both systems** — ParametersModel, case analysis over values. Status: proved. Proved.
- **C260 Constants in a header file are read exactly and the last counts** — SourceModel, character-level model of the regular expressions used; induction over lines. Status: proved. Proved.
- **C261 Stripping comments leaves no comment sign** — FilesModel, file system as a partial function of paths; histories of calls. Status: proved. Proved.
- **C262 Arithmetic with vectors acts on each value** — PhysicalModel, case analysis on operands with induction over values; refinement between caching objects and plain values for every history. Status: proved. Proved as an equivalence. Division by zero is outside the model (numpy gives infinities).
- **C263 Sums and products do not depend on the order of quantities** — PhysicalModel, case analysis on operands with induction over values; refinement between caching objects and plain values for every history. Status: partial. Refuted for a scalar before a vector with other than one value: Scalar(data) raises TypeError, while the vector before the scalar works. Proved for all other pairs.
- **C264 A vector made from an object has its values, unit and name** — PhysicalModel, case analysis on operands with induction over values; refinement between caching objects and plain values for every history. Status: partial. Refuted for vectors (unit and name are lost) and for names given with measurements. Proved for numbers, scalars and unnamed measurements.
- **C265 Positions of a vector give its values** — PhysicalModel, case analysis on operands with induction over values; refinement between caching objects and plain values for every history. Status: partial. Refuted: the length is added to a negative position before numpy adds it again, so that v[-n-1] is the last value. Proved for all other positions.
- **C266 Slices of a vector are lists of scalars** — PhysicalModel, case analysis on operands with induction over values; refinement between caching objects and plain values for every history. Status: proved. Proved.
- **C267 Vectors are equal exactly if values and units are** — PhysicalModel, case analysis on operands with induction over values; refinement between caching objects and plain values for every history. Status: proved. Proved.
- **C268 scalar() keeps a single value and its unit** — PhysicalModel, case analysis on operands with induction over values; refinement between caching objects and plain values for every history. Status: proved. Proved for the modelled kinds of argument; names are treated in C269.
- **C269 Quantities made from named quantities keep the name** — PhysicalModel, case analysis on operands with induction over values; refinement between caching objects and plain values for every history. Status: partial. Refuted for one-valued vectors, elements of vectors and conversions. Proved for scalars.
- **C270 Scalars and vectors keep their amounts in another unit** — PhysicalModel, case analysis on operands with induction over values; refinement between caching objects and plain values for every history. Status: proved. Proved. Names of metric systems as units are left out.
- **C271 Arrays behave as values whatever is read before** — PhysicalModel, case analysis on operands with induction over values; refinement between caching objects and plain values for every history. Status: proved. Proved by refinement between the caching objects and plain values.
- **C272 Copies of arrays behave as the original** — PhysicalModel, case analysis on operands with induction over values; refinement between caching objects and plain values for every history. Status: partial. Refuted: the copy of a converted array keeps the unconverted data with the new unit, which a later conversion uses. Proved for histories in which copies come after all conversions.
- **C273 Subscripts of arrays give what numpy gives** — PhysicalModel, case analysis on operands with induction over values; refinement between caching objects and plain values for every history. Status: proved. Proved with respect to the model of numpy's basic indexing.
- **C274 Lists and new axes in subscripts of arrays** — PhysicalModel, case analysis on operands with induction over values; refinement between caching objects and plain values for every history. Status: partial. Refuted: ranges beside a list are read as the whole axis, a single list raises ValueError, None alone is ignored. Proved for lists and whole axes.
- **C275 Arrays are equal exactly if values and units are** — PhysicalModel, case analysis on operands with induction over values; refinement between caching objects and plain values for every history. Status: proved. Proved.
- **C276 numpy functions see the values in the current unit** — PhysicalModel, case analysis on operands with induction over values; refinement between caching objects and plain values for every history. Status: proved. Proved. Functions registered with `implements` are left out.
- **C277 Results of numpy functions keep the unit** — PhysicalModel, case analysis on operands with induction over values; refinement between caching objects and plain values for every history. Status: partial. Refuted: the result is always a plain numpy object.
- **C278 A conversion means the same in every history** — ConverterModel, an invariant over every history of calls that every cached object has the factor of the search; lemmas about the tables by computation. Status: proved. Proved for every table of conversions.
- **C279 Converting the unit of a quantity** — ConverterModel, an invariant over every history of calls that every cached object has the factor of the search; lemmas about the tables by computation. Status: partial. Refuted: the quantity of the units is not checked (Quantity('energy').convert('m').to('cm') is 100), and names of systems are recognised in small letters only. Proved: the factor for names in small letters and units.
- **C280 The quotient of two units is the ratio of their sizes** — ConverterModel, an invariant over every history of calls that every cached object has the factor of the search; lemmas about the tables by computation. Status: proved. Proved.
- **C281 Collections of dimensions** — ConverterModel, an invariant over every history of calls that every cached object has the factor of the search; lemmas about the tables by computation. Status: partial. Refuted: the common dimension cannot stand alone and is not given to systems that are left out; a system given under a capitalized name is never found. Proved: the given dimension, the common one for systems passed as None or '', None for systems left out, KeyError for other names, and when it can be created.
- **C282 The metric systems of a named unit** — ConverterModel, an invariant over every history of calls that every cached object has the factor of the search; lemmas about the tables by computation. Status: partial. Refuted for the lux, whose quantity is misspelled in the table; proved for every other unit.
- **C283 Reducing an expression to base units** — ConverterModel, an invariant over every history of calls that every cached object has the factor of the search; lemmas about the tables by computation. Status: partial. Refuted: the base units of all terms but the first reduced one are lost. Proved: the scale.
- **C284 Metric consistency of units** — ConverterModel, an invariant over every history of calls that every cached object has the factor of the search; lemmas about the tables by computation. Status: partial. Refuted: Hz | Bq is true without a conversion. Proved: equal dimensions in some systems suffice, inconsistent units have neither equal dimensions nor a conversion; reflexive; symmetric unless there is a conversion in one direction only (not known to happen in the tables).
- **C285 Parameters of a run follow the current paths** — SessionModel, an invariant over every history of calls, with arbitrary file contents at each call, that every cache holds what the files contain at the current paths. Status: proved. Full. File contents, the evaluation of a parameter (any program that asks for reference, definitions and constants) are universally quantified.
- **C286 Paths of a run** — SessionModel, an invariant over every history of calls, with arbitrary file contents at each call, that every cache holds what the files contain at the current paths. Status: proved. Full.
- **C287 A parameter keeps its value between path changes** — SessionModel, an invariant over every history of calls, with arbitrary file contents at each call, that every cache holds what the files contain at the current paths. Status: proved. Full.
- **C288 Constants and formats of the source code** — SessionModel, an invariant over every history of calls, with arbitrary file contents at each call, that every cache holds what the files contain at the current paths. Status: proved. Full.
- **C289 Names of the parameters of a run** — SessionModel, an invariant over every history of calls, with arbitrary file contents at each call, that every cache holds what the files contain at the current paths. Status: partial. Refuted: the names stay those of the first source path; iteration then gives names whose lookup raises KeyError. Proved: they are right as long as the source path is not set.
- **C290 Every expression is in canonical form** — TermsModel, induction over the ways of building an expression shows that all are canonical; the laws of reduction do the rest. Status: proved. Full.
- **C291 Operands given as text** — TermsModel, induction over the ways of building an expression shows that all are canonical; the laws of reduction do the rest. Status: proved. Full; ratio(a, a) = 1 for floating-point operations in which 1 is exact.
- **C292 Differences of expressions** — TermsModel, induction over the ways of building an expression shows that all are canonical; the laws of reduction do the rest. Status: proved. Full.
- **C293 Evaluating a term** — TermsModel, induction over the ways of building an expression shows that all are canonical; the laws of reduction do the rest. Status: partial. Proved for numbers other than 0 and integer exponents. Missing: fractional exponents, which go through floats. Refuted at 0: a variable with a positive exponent evaluates to 1, because a vanishing coefficient is replaced by 1.
- **C294 Comparing a term with a number** — TermsModel, induction over the ways of building an expression shows that all are canonical; the laws of reduction do the rest. Status: partial. Proved for constants. Refuted for variables: the comparison raises TypeError.
- **C295 Styles of text** — TermsModel, induction over the ways of building an expression shows that all are canonical; the laws of reduction do the rest. Status: proved. Full.
- **C296 Applying a function to the bases of an expression** — TermsModel, induction over the ways of building an expression shows that all are canonical; the laws of reduction do the rest. Status: partial. Proved without coefficients, when the product survives being written as text (C04). Refuted with coefficients: they are dropped.
- **C297 A singleton class always gives the same object** — ContainersModel, invariants over all histories of calls; for singletons, that under single inheritance the resolution order of an ancestor is a suffix. Status: proved. Full.
- **C298 A singleton class gives an object of its own** — ContainersModel, invariants over all histories of calls; for singletons, that under single inheritance the resolution order of an ancestor is a suffix. Status: partial. Proved: the object is of the class or of an ancestor that had been called before. Refuted: a class called after its parent gives the parent's object; with several parents the object may change.
- **C299 Lookups in uniform mappings** — ContainersModel, invariants over all histories of calls; for singletons, that under single inheritance the resolution order of an ancestor is a suffix. Status: partial. Proved when the entries include all parameters. Refuted: missing entries are passed as None instead of using the default or raising; classes without their own __init__ always raise TypeError.
- **C300 Registries are independent** — ContainersModel, invariants over all histories of calls; for singletons, that under single inheritance the resolution order of an ancestor is a suffix. Status: proved. Full, without changes of entries in place (copies are documented as shallow).
- **C301 A registry holds what was registered** — ContainersModel, invariants over all histories of calls; for singletons, that under single inheritance the resolution order of an ancestor is a suffix. Status: partial. Proved when the name or the defined name is free (or may be overwritten). Refuted: metadata may replace the object; a registration in a copy may overwrite an entry; changes in place survive reset.
- **C302 Collection mixin is a live view** — ContainersModel, invariants over all histories of calls; for singletons, that under single inheritance the resolution order of an ancestor is a suffix. Status: proved. Full.
- **C303 A table follows its entries** — ContainersModel, invariants over all histories of calls; for singletons, that under single inheritance the resolution order of an ancestor is a suffix. Status: partial. Proved as long as changes keep the set of common keys. Refuted otherwise: get raises KeyError, new common keys are not found.
- **C304 Nested lookups, queues and checks** — ContainersModel, invariants over all histories of calls; for singletons, that under single inheritance the resolution order of an ancestor is a suffix. Status: proved. Full.
- **C305 Texts that are numbers** — PackageModel, decimal numerals as a grammar with its value, and the reader proved sound and complete for it; meanings of parameters as an inductive relation, proved to be what evaluation reaches; finite facts about the tables (no shared names) by computation, and from them the names of the interface for every file through the general theorems about merging groups. Status: proved. Full.
- **C306 Every parameter of the package has the user's value or its default** — PackageModel, decimal numerals as a grammar with its value, and the reader proved sound and complete for it; meanings of parameters as an inductive relation, proved to be what evaluation reaches; finite facts about the tables (no shared names) by computation, and from them the names of the interface for every file through the general theorems about merging groups. Status: partial. Proved for texts that can be read. Refuted: when simStartTime and tDel cancel and simStopTime is not given no parameter can be read; a whole number given as 0.0 cannot be read.
- **C307 Names and units of the package's parameters** — PackageModel, decimal numerals as a grammar with its value, and the reader proved sound and complete for it; meanings of parameters as an inductive relation, proved to be what evaluation reaches; finite facts about the tables (no shared names) by computation, and from them the names of the interface for every file through the general theorems about merging groups. Status: proved. Full.
- **C308 Arguments from the package's parameters** — PackageModel, decimal numerals as a grammar with its value, and the reader proved sound and complete for it; meanings of parameters as an inductive relation, proved to be what evaluation reaches; finite facts about the tables (no shared names) by computation, and from them the names of the interface for every file through the general theorems about merging groups. Status: partial. Proved except for numbers without a unit, whose conversion to float raises TypeError.
- **C309 Default speeds are below that of light** — PackageModel, decimal numerals as a grammar with its value, and the reader proved sound and complete for it; meanings of parameters as an inductive relation, proved to be what evaluation reaches; finite facts about the tables (no shared names) by computation, and from them the names of the interface for every file through the general theorems about merging groups. Status: partial. Refuted: flowMag and idealShockSpeed have defaults in cm/s but the unit km/s.
- **C310 Groups of names can be found and left out by any of their names** — AliasedModel, invariants over every history of operations, refinement to a plain map with an alias relation. Status: proved. Proved.
- **C311 The other names of a key** — AliasedModel, invariants over every history of operations, refinement to a plain map with an alias relation. Status: proved. Proved, with the TypeError for unknown keys (finding).
- **C312 Look-up by a whole group of names** — AliasedModel, invariants over every history of operations, refinement to a plain map with an alias relation. Status: proved. Proved.
- **C313 Subscripts of arrays select the documented elements** — ArrayModel, a relational specification of basic indexing after numpy's documentation (`SubscriptSpec.v`), shown to determine its results and to agree with the model by induction on the list of subscripts. Status: proved. Proved. Subscripts with lists are C274 and C98.
- **C314 Ranges of a variable keep its axes** — ArrayModel, a relational specification of basic indexing after numpy's documentation (`SubscriptSpec.v`), shown to determine its results and to agree with the model by induction on the list of subscripts. Status: proved. Proved.
- **C315 Invalid subscripts of arrays raise the documented errors** — ArrayModel, a relational specification of basic indexing after numpy's documentation (`SubscriptSpec.v`), shown to determine its results and to agree with the model by induction on the list of subscripts. Status: proved. Proved.
- **C316 Axes have names** — ArrayModel, a relational specification of basic indexing after numpy's documentation (`SubscriptSpec.v`), shown to determine its results and to agree with the model by induction on the list of subscripts. Status: proved. Proved.
- **C317 Sums of variables with sizes that fit or do not fit** — ArrayModel, a relational specification of basic indexing after numpy's documentation (`SubscriptSpec.v`), shown to determine its results and to agree with the model by induction on the list of subscripts. Status: proved. Proved.
- **C318 What axes accept** — AxisModel, case analysis of the first object that stands for none, and the results about numerals of PackageProofs. Status: proved. C318_default: the default axis, for all lists that do not begin with a slice or range; index_of says which objects stand for which indices. C318_shells, C318_coordinates, C318_species: the axes of EPREM datasets. C318_units: conversions.
- **C319 Texts of objects are templates with the attributes filled in** — DisplayModel, texts as lists of characters, symbolic execution of the format, induction over parts. Status: proved. C319_text: every template that consists of characters, doubled braces and known names. C319_errors: a malformed end after any well-formed beginning.
- **C320 Objects of a type and with members of a type** — IterablesModel, induction over lists. Status: proved. C320_true and C320_error determine the result for all objects.
- **C321 The first method with a result** — IterablesModel, induction over lists. Status: proved. C321_first: equivalences for a result, an exception and no result.
- **C322 Columns of a table** — IterablesModel, induction over lists. Status: proved. C322_column, C322_default, C322_no_rows.
- **C323 Every value with its unit** — DistributeModel, induction on the depth of the object, as for `measure`. Status: proved. C323_distributed: spread lists the forms of objects that the documentation lists, with units that may differ. C323_agrees: both modes. C323_errors.
- **C324 Which units are consistent** — ConverterModel, an invariant over every history of calls that every cached object has the factor of the search; lemmas about the tables by computation. Status: proved. Exact part of C284: it says precisely when unit_or is true.
- **C325 Creating dimensions** — MetadataModel, case analysis over the rules, induction over name lists. Status: proved.
- **C326 A restriction of an array selects the slices at its indices** — RestrictionModel, the permutations of axes are computed for an axis at any place (`l ++ n :: r`), by induction on the lists before and after it; the composition with C75 gives C327. Status: proved.
- **C327 Restriction of an array to a target coordinate** — RestrictionModel, the permutations of axes are computed for an axis at any place (`l ++ n :: r`), by induction on the lists before and after it; the composition with C75 gives C327. Status: proved. One-dimensional coordinates, as in C75.
- **C328 The array and the parameters of an observed quantity do not depend on what was asked before** — ObservedModel, an invariant of the caches over all histories of use; the refuted parts are stated for every quantity and every text. Status: proved.
- **C329 An observed quantity gives its axes and assumptions by name** — ObservedModel, an invariant of the caches over all histories of use; the refuted parts are stated for every quantity and every text. Status: proved. Keys that are groups of names or units are not modelled.
- **C330 Subscripting an observed quantity with a unit gives it in that unit** — ObservedModel, an invariant of the caches over all histories of use; the refuted parts are stated for every quantity and every text. Status: partial. Refuted: the new quantity always has the unit and the values of the old one, whatever the text is; without assumptions the subscript is a TypeError.
- **C331 Observed quantities are equal if their attributes are** — ObservedModel, an invariant of the caches over all histories of use; the refuted parts are stated for every quantity and every text. Status: partial. Refuted: the comparison reads attributes that do not exist, so that it never gives True: it raises AttributeError as soon as the data are equal. Proved: quantities with different data are different.
- **C332 An observer observes a quantity with several names if it observes one of them** — ObserverModel, state machine with exceptions that carry the state. Status: partial. Refuted: only the first name is looked at. Proved: the answer is yes if all names are names of observable quantities, and no if none is a name of an observable quantity or an expression.
- **C333 Converting a quantity preserves amounts** — AmountsModel, a machine of absolute amounts in which a conversion changes nothing but the unit; a simulation between it and the machine of values, with the factor of unit // unit from the Converter modules. Status: proved. Joins the model of arrays with the model of the units: C43 (histories) with C280 (quotients of units) and C324 (consistent units). Sizes of units are those of MetricSpec.sizes, which exist for the package's table (C233). Copies are left out: C44 shows that they break the scaling.
- **C334 The user's own values are told apart from defaults** — PackageModel, decimal numerals as a grammar with its value, and the reader proved sound and complete for it; meanings of parameters as an inductive relation, proved to be what evaluation reaches; finite facts about the tables (no shared names) by computation, and from them the names of the interface for every file through the general theorems about merging groups. Status: partial. Refuted for the other names of a parameter: a value that the file assigns is not found under them, and a value assigned to them is ignored in favour of the parameter's default. Proved for the parameters' own names, for names that the file does not assign and for names of no parameter.
- **C335 Texts as lists of numbers** — RuntimeModel, stripping splits a text into removed and kept characters, splitting at commas is inverse to joining, and C305 characterises the numerals; both directions of an equivalence. Status: proved. Proved as an equivalence. Numerals with underscores, infinities and complex numbers, which Python also reads, are outside the model.
- **C336 Double precision** — SymbolicModel, integer arithmetic shows that the rounded quotient is the nearest integer, logarithms bound the exponent, and the relative error 2^-53 separates small fractions; the laws of C03, C06 and C10 then hold without hypotheses about floats. Status: proved. Proved with the binary64 instance of the numbers, whose exponents are not limited: infinities and subnormal numbers are outside the model.
- **C337 Decimal numbers in expressions** — SymbolicModel, a numeral is specified by its digits and its value as digits times a power of ten; the pattern's first match is followed symbolically, including the matches that fail before the letter of the power is taken as a base; tokens are chained with the lemmas of C06. Status: proved. Floats are arbitrary here; with binary64 rounding the rounded value is that of C336.
- **C338 Signed powers of ten in expressions** — SymbolicModel, a numeral is specified by its digits and its value as digits times a power of ten; the pattern's first match is followed symbolically, including the matches that fail before the letter of the power is taken as a base; tokens are chained with the lemmas of C06. Status: partial. True of a number written directly before a base (C338_attached_partial). False of every such number alone: `2e-3` is read as 2 times the unknown `e` times -3, that is -6 e (C338_alone_refuted says what each one becomes).
- **C339 The grammar of written expressions** — SymbolicModel, a syntax of phrases and joints is printed to text with its blanks; the operator patterns are followed through any number of blanks and the operand patterns through any phrase that may follow; nested brackets by induction on phrases, with the outcome (terms or refusal) of C06; blanks are irrelevant because the meaning of a phrase does not mention them. Status: proved. Extends C06 and C337 to all spacings, to brackets directly after a factor and to decimal exponents of brackets.
- **C340 Coefficients of brackets** — SymbolicModel, a syntax of phrases and joints is printed to text with its blanks; the operator patterns are followed through any number of blanks and the operand patterns through any phrase that may follow; nested brackets by induction on phrases, with the outcome (terms or refusal) of C06; blanks are irrelevant because the meaning of a phrase does not mention them. Status: partial. True without a stroke before the factor (C340_coefficient_partial). False after a stroke: `a / 2(b c)` is a b c / 2 (C340_quotient_refuted; C340_quotient gives the value in every case).
- **C341 Blanks in expressions** — SymbolicModel, a syntax of phrases and joints is printed to text with its blanks; the operator patterns are followed through any number of blanks and the operand patterns through any phrase that may follow; nested brackets by induction on phrases, with the outcome (terms or refusal) of C06; blanks are irrelevant because the meaning of a phrase does not mention them. Status: proved. Blanks are spaces; other white space is not in the grammar of the model's texts.
- **C342 Rational exponents of brackets** — SymbolicModel, a syntax of phrases and joints is printed to text with its blanks; the operator patterns are followed through any number of blanks and the operand patterns through any phrase that may follow; nested brackets by induction on phrases, with the outcome (terms or refusal) of C06; blanks are irrelevant because the meaning of a phrase does not mention them. Status: proved. The only fact about floats it uses is that every power of 1.0 is 1.0.
- **C343 Square roots in expressions** — SymbolicModel, a syntax of phrases and joints is printed to text with its blanks; the operator patterns are followed through any number of blanks and the operand patterns through any phrase that may follow; nested brackets by induction on phrases, with the outcome (terms or refusal) of C06; blanks are irrelevant because the meaning of a phrase does not mention them. Status: partial. Proved for 'sqrt' at the start of the expression and after a blank, when the exponent written at the end of the phrase and its half are floats. Refuted: after '*' or '/' the word is read as the name of a base; sqrt(a)^1/3 is not a^1/6.
- **C344 Removing the separators around a text** — TermsModel, induction over the ways of building an expression shows that all are canonical; the laws of reduction do the rest. Status: partial. Proved for texts enclosed in one matching pair, and for texts that do not both start with an opening and end with a closing bracket. Refuted: '(a)(b)' becomes 'a)(b', for all a without brackets and all b; the empty text raises IndexError.
- **C345 The dimension of a product of units** — the models of the functions it names, the loop over the factors keeps an expression in canonical form whose exponents are the sums of those that the factors bring (induction over the factors; the rows of the table are checked once by computation); the comparison with '1' holds exactly if all exponents are zero. Status: proved.
- **C346 A unit that has the dimension 1 is dimensionless** — the models of the functions it names, the loop over the factors keeps an expression in canonical form whose exponents are the sums of those that the factors bring (induction over the factors; the rows of the table are checked once by computation); the comparison with '1' holds exactly if all exponents are zero. Status: partial. Proved for products with a unit of each system. Refuted: F V C^-1 has the dimension 1 in mks and no dimension in cgs, and is not dimensionless; F V C^-1 rad is.
- **C347 Dimensions multiply as their units do** — the models of the functions it names, the loop over the factors keeps an expression in canonical form whose exponents are the sums of those that the factors bring (induction over the factors; the rows of the table are checked once by computation); the comparison with '1' holds exactly if all exponents are zero. Status: proved.

## Findings

Each line names a behaviour of the code at the pinned commit that breaks what a user would expect. The properties in brackets are those that treat it; their theorems ending in `_refuted` are machine-checked witnesses. Behaviours without a property were noticed while reading and are recorded but not proved.

**symbolic** — numbers pass through `float`, so 1/3 and float(1/3) are equal (C03, C04); exponents with denominators of two or more digits are misread, `a^1/12` becomes `2 a` (C06); `(a^2)**0` is `a` (C05); a base starting with "sqrt" is read as an operator (C06); `)(a)` gives the bounds (1, 2) (C07); indices below -len wrap a second time (C09); `a / 3` and `1/3 a` are equal with different hashes (C10); `create('ab(c)')` drops `ab`; `2e5` is read as one constant, and a number with a signed power of ten is torn apart: `2e-3` is read as `-6 e` (C338).

**aliased** — `alias` with a taken name keeps the names before it (C14); merging groups can overlap or raise ValueError (C15); assigning to a tuple that contains an existing name creates a second group with that name (C68); merging a bare string searches its characters; a strict `squeeze` of an empty mapping raises IndexError; a repeated name in a list of aliases raises KeyError.

**iterables** — a non-strict table request that determines one row can raise AmbiguousRequestError, and an empty table raises IndexError (C17, C18); a node connected to itself has a non-reciprocal weight (C19); registering `f_1, f, f` overwrites `f_1`, nameless objects share the key None (C21); slices with stop 0 or beyond the length (C24); a guarded subclass of a declared exception raises KeyError (C25); `show_at_most(0)` shows everything (C69).

**numerical, interpolation** — a repeated coordinate gives an empty restriction; 2-D interpolation at a coordinate returns one cell; `axis=1` with a 1-D reference always raises away from coordinates (C75–C79).

**spelling** — insertions at the end of a word are never tried, the empty word has no suggestions, truth mode is true for words resembling nothing (C30, C80, C81).

**metric: units** — "cd" is the centiday and the prefix ' ' has scale 0 (C35); `lx` raises KeyError; Ω decomposes like V because the declared dimension of resistance has I^-1; kN, kJ and MeV raise SystemAmbiguityError; `J` to `kg km^2 s^-2`, `min*h` to `d^2`, `au` to `min` and `eV` to `min` give the factor 1; `2 m` to `cm` gives 100; conversions by way of angles differ by route; `Hz` and `1/s` are not convertible; `kJ == N m` raises; `deg == 1` (C32, C34, C82–C87). `Expression(None)` is `1`, so tests for None are dead code; 'seimens' is misspelt; Unit instances are cached across classes.

**metric: systems** — `C = 2.99792458e10` stands where metres per second are meant: coulomb and ampere are 100 times too large in cgs, volt 100 times too small, henry and impedance 10^4 too small, siemens 10^4 too large (C184); `1e7 / 4*PI`; displacement in `statC / m^2` (C184); the units of resistance, resistivity, conductivity, magnetization, magnetic moment, power density and thermal conductivity cannot be converted between systems; `Bq` to `Ci` (C183); the canonical unit's dimension differs from the declared one for luminous rows and permittivity (C185); an unknown quantity word raises RecursionError (C186, C188); `norm` drops constants and loses dimensions of mixed systems (C188); 'luminous intensity' | 'time' is true (C189); a dimension is found only when written as stored (C187); `quantities('MKS')` raises KeyError (C190).

**metadata** — suppression rules are cut to the shorter length, suppress() without types rejects everything, groups in suppress are read as unions (C36, C88–C92); Operation.copy drops rules; equality of dimensions ignores order and is asymmetric with repeats (C39); `1/name` is `name`, reflected operands are swapped, names lack parentheses, `name*0.1` shows a huge fraction (C40, C103).

**measurable** — `measure(1, [2, 3])` drops the list, `[(1,2),(3,4),'m']` drops (3,4), `[(1,'km'),'m']` returns 'km' as a value (C41, C93–C96); measure(90, 'deg') has the unit 1; every in-place operation that evaluates changes the data and then raises ValueError (C42); V·A and ohm·A have the same unit, 90 deg + 1 is 91 deg, q**0 raises TypeError (C37).

**variable (arrays)** — a copy of a converted quantity converts wrongly (C44); an ellipsis for several axes drops later lists (C46); steps, negative or too large bounds beside integers raise ValueError (C97); a slice beside a list reads the whole axis, `v[[]]` reads everything (C98); sums with permuted axes are not aligned (C99); means over a negative axis raise ValueError (C101); products with different sizes truncate (C102).

**observing, observer** — the names available are frozen at the first query (C49); nested constants are not reported (C104); observations with every axis interpolated are subscripted again (C105); constraints under aliases are ignored except radius (C107); the exponent of the first term is ignored (C143); update resets the system to mks (C145); update(source) keeps the cached path (C144); a failed update keeps the wrong source (C146); unknown names never get suggestions and a second unknown name raises TypeError (C140); `Vr^2`, `Vr Vt` and `2 * Vr` are refused, `J(E) * r` is read as J·E·r (C60).

**runtime** — a bad line makes the whole file a ValueError (C50); a blank before '=' becomes part of the key (C51); zero sums raise TypeError, the third term of a sum is dropped, `1e-3*a` splits at '-' (C52); unknown factors are dropped and a zero factor counts as 1 (C109); comment signs are ignored in values (C112); one bad parameter makes the interface fail (C113); names with digits or small letters are skipped (C156); commas in text defaults cut them (C157); arrays of several values are not read, a call without default raises KeyError (C158); a directory without the file silently uses the package's definitions (C160); the full difference of two files is not symmetric; a missing type makes `in` raise TypeError.

**operational (parameters)** — a text argument is iterated as characters (C161); int of text of two or more characters raises NumericCastError, float of an option TypeError (C162); truth of several values raises ValueError (C163); single values cannot be subscripted and indices from -2n to -n-1 wrap (C164); equality is asymmetric (C165); conversion loses the name (C167); c1 in cgs is too small by 10^11 (C168); compare opens paths relative to the common ancestor from the working directory (C169); the difference of equal files raises StopIteration (C170).

**axis** — negative slices are rejected, empty selections raise IndexError or give the whole axis, reals are truncated (C53, C118); inconsistent target units are ignored (C115); indices are not checked against the range (C116); values do not match points for integer selections (C117).

**eprem, computed** — elements of the same rounded mass are confused (C57); nested removals of axes are global (C58); standardize is not idempotent (C121); converting a computed quantity changes the shared cached object (C122); the perpendicular speed is undefined for parallel vectors in binary64 (C55); flow_angle has its arguments swapped (C56); parse reorders and drops arguments (C54); coordinate transforms (C124–C126); the proton mass is used for every species (C132, C133); Simpson's weights can be negative (C135, C138); the integral flux raises IndexError at the greatest energy and extrapolates below a species' minimum (C137).

**iotools, datafile** — overlapping comment signs depend on their order (C147); a missing directory makes a search raise (C148); a str and a Path give different cached instances (C151); `use()` changes all datasets of a type (C152); the error for an unknown type is never raised (C153); two variables naming one quantity hide each other (C154); ReadOnlyPath never protects (C155).

**observable** — whether conversion raises depends on whether `unit` was read before (C171); 'MKS' passes the test but raises KeyError (C173); observing `1 / Vr` without a unit raises ValueError (C174); axis aliases are read as units, observations without assumptions raise TypeError (C175); different quantities compare equal (C176).

**plasma** — signs inside a symbol hide those at its end (C178); mass and charge of Ca++ give Ar++ (C180); a mass or charge alone is accepted and then raises (C182).

**variables of a dataset** — a unit given in the attribute `unit` is shown unconverted beside converted values (C191); EPREM charges in cgs are 100 times too large (C191); a variable without a unit, or an interface without a system, raises (C192); the generic interface raises AttributeError for every known name (C194).

**views of aliased mappings** — equality ignores aliases, so equal mappings behave differently under the same calls (C196); views of names are snapshots: new names are missing and values raise KeyError after a deletion (C197); `fromkeys({'a': 1})` raises AttributeError (C198); an inverted name map iterates over names that raise KeyError, its copy is not inverted and a second inversion raises TypeError (C199).

**displays** — names are shown in doubled quotes, `''V'': 3.0 [m]` (C200); an option without a name shows an empty name and two blanks (C201); appending to an empty display leaves a leading separator (C202); batch replacement is sequential (C204); inherited class attributes are repeated (C205).

**numpy functions of arrays** — numpy.square, reciprocal, exp, ... keep the unit of their argument (C209); comparisons ignore units (C210); arrays with exchanged axes compare equal (C211); `!=` of two arrays always raises MetadataError (C212); a numpy number or array on the left of a product raises TypeError (C213); arithmetic on an array without axes loses the unit (C214); `array_contains` misses values just beyond the extremes (C216).

**operations and operands** — rules about comparisons and casts are never consulted (C220); registering an attribute twice lists it twice (C221); a slice of operands forgets the reference (C225); an unnamed quantity that is given names keeps the empty one (C227).

**named quantities** — a scalar times a vector raises TypeError although the vector times the scalar works (C263); `Vector(vector)` loses unit and name, `Vector(measurement, name=...)` ignores the name (C264); `v[-n-1]` is the last value of a vector of size n instead of an IndexError (C265); elements, conversions and `scalar(vector)` lose the name (C269); a copy of a converted array converts wrongly (C272); ranges beside lists are ignored, `a[[0, 1]]` raises ValueError and `a[None]` adds no axis (C274); results of numpy functions lose the unit (C277).

**conversions and dimensions** — Quantity('energy').convert('m').to('cm') is 100 (C279); 'MKS' and 'CGS' are not recognised as targets (C279); `Dimensions('L')` raises TypeError, `Dimensions('L', mks='M')['cgs']` and `Dimensions(MKS='L')['MKS']` are None (C281); the systems of the lux raise KeyError (C282); `reduction('km g')` forgets all units but the first (C283); `Unit('Hz') | Unit('Bq')` although there is no conversion (C284).

**caches of a run** — after `path_to(source=...)` a Runtime still iterates over the names of the first source path; their lookup may raise KeyError (C289).

**terms** — `Term(base='a')(0)` has the value 1 (C293); comparing a variable term with a number raises TypeError (C294); `Expression('2 a').apply(f)` loses the coefficient (C296).

**containers** — a subclass of a Singleton class gives the object of its parent if that was created first, e.g. a subclass of NothingType gives Nothing (C298); UniformMapping passes None for missing entries instead of using defaults, and cannot use classes without __init__ (C299); registry metadata named 'object' replace the object, a copy of a registry restarts its counter and overwrites entries, reset does not undo changes in place (C301); a Table whose entries change keeps its old common keys (C303).

**the package's parameters** — the defaults of flowMag (400.0e5) and idealShockSpeed (1500e5) are in cm/s but have the unit 'km/s' in the metadata, which makes them faster than light (C309); if simStartTime and tDel cancel and simStopTime is not given, no parameter can be read (C306); a whole number written 0.0 cannot be read (C306); most parameters have no unit, and `float` of one raises TypeError (C308); the metadata has entries for parameters that do not exist (enlilCouple, maxInjectionEnergy).

**names** — `Mapping.alias(k, include=False)` (default) raises TypeError for an unknown key, while `include=True` gives None (C311).

**observed quantities (core/observed.py)** — `Quantity.__getitem__` with a unit returns a copy in the old unit (`C330_unit_refuted`), without assumptions it raises TypeError (`C330_no_assumptions_refuted`), and `==` raises AttributeError whenever the data are equal, so that no observed quantity equals itself (`C331_equal_refuted`, `C331_never_refuted`).

**observers** — `Interface.observes` with a collection of names looks at the first name only, so that the answer depends on the order of aliases (`C332_first_refuted`).

**The user's own values** — `Interface.config(name, default)` looks for `name` itself among the keys of the file and then gets the value by any of the parameter's names. With `lamo=0.5` in the file, `config('lam0')` gives the default although `interface['lam0']` is 0.5; with `lam0=0.5` in the file, `config('lam0')` gives 1.0, which the user never wrote (C334).

**Coefficients of brackets** — a number directly before a bracket is read as a factor of its own, so that a stroke before it inverts the number only: `a / 2(b c)` is a b c / 2 (`C340_quotient_refuted`). The branch of `_match_complex` that gives the coefficient to the bracket is never reached when an expression is read.

**Square roots** — `sqrt(a b)` is the square root at the start of an expression and after a blank, but after `*` or `/` the word is read as the name of a base: `a / sqrt(b)` is a b sqrt^-1 and `a * sqrt(b)` is a b sqrt (`C343_sign_refuted`). The root is taken in floats: `sqrt(a)^1/3` has the exponent 6004799503160661/36028797018963968 instead of 1/6 (`C343_exact_refuted`).

**Separators** — `strip_separators` only looks at the first and the last character: '(a)(b)' becomes 'a)(b' (`C344_pairs_refuted`).

**Dimensionless units** — A product of units that are all particular to one system has no dimension in the other, so that it never counts as dimensionless: `F V / C` has the dimension 1 in mks but is not dimensionless, while `F V rad / C` is (`C346_alien_refuted`).
