# Formal model of seequent/properties in Rocq (Coq 8.16.1)

## Approach

The library is modelled by total, computable Gallina functions that follow the
Python branch by branch.  Exceptions are values (`res A := Ok a | Exc e`), the
mutable state is an explicit `world`, loops are structural recursion.  Library
code calls user code, which calls library code again, and object graphs may be
cyclic: this recursion consumes a budget, and running out of it is Python's
`RecursionError`.  Theorems hold for every budget, or for every budget beyond
some depth where they say that an operation ends.

User code (observers, validators, dynamic getters and setters, callable
defaults, class validators, link transforms) is an arbitrary well-founded
interaction tree (`prog`) over the public API.  "For every callback" is a
quantifier over trees that may read, assign, delete, construct, validate,
serialize, deserialize, compare, register observers, link, disable listeners,
catch exceptions and raise.  The parts with their own state (singletons, uids,
observable containers, files, tasks) are separate small models with arbitrary
programs or functions in place of the rest.

Statements use specification files (`*Spec.v`).  What an operation does to an
instance or a graph is described there in terms of states and declarations.
They are not free of the model: statements about containers, unions, class
defaults, links and graphs are relative to what one property type or leaf does
(`p_validate`, `p_equal`, `leaf_validate`, `leaf_equal`, `leaf_to_json`,
`leaf_from_json`), and say that an operation "ends" by means of `exec`.  The
leaves themselves are specified independently, in `NumSpec.v` and
`BasicSpec.v`.  The files `Properties*.v`
contain nothing but the property theorems; each is followed by
`Print Assumptions` and a concrete case that meets its hypotheses.  Theorems
named `..._refuted` give a concrete state in which the code does not do what a
reader of the documentation would expect; they are the findings below.

## Trusted base

* The Coq 8.16.1 kernel.  `coqchk -o` was run once on all compiled
  files: it accepted them and reported no axioms, no type-in-type, no unsafe
  fixpoints and no assumed positivity.  That run was not on a clean build of one
  commit: most files had been compiled shortly before comment-only edits, and
  the `Sharing` files were recompiled while it ran.  A second run, with the same
  result, covered `PropertiesSharing` and its dependencies as of e04a7dd.
  `SharingFacts`, `PropertiesSharing` and `PropertiesBasic` changed afterwards
  and were checked by `coqc` only.
* `Print Assumptions` says "Closed under the global context" for every theorem
  in `Properties*.v`.  No axiom is used, not even of the standard library.
  Floats are the inductive `spec_float` of the standard library (binary64 with
  `emax` 1024), not primitive floats.
* Nothing but the standard library is imported; no plugins, functors, module
  types or section-less variables.
* The reading of the Python source.  Every definition of the model cites the
  lines it models, and states what it leaves out.
* The environment record `env` (PyVal.v) stands for what the model takes from
  Python without looking inside: `float(str)`, `complex(str)`, `str(complex)`,
  whether `strftime` pads years, and random choices.  Theorems quantify over
  it; some assume `reads_special` (BasicSpec.v), on how `float` reads the
  strings for nan and infinities.

## Files (in `rocq/theories`)

| file | models or proves |
|---|---|
| `PyBase.v`, `PyFloat.v`, `PyVal.v` | exceptions, ASCII strings, `int(str)`, dictionaries; doubles and mixed comparison; values, `==`, hashing, truth |
| `Colors.v`, `Basic.v` | basic.py: validate, equal, to_json and from_json of Boolean, Integer, Float, Complex, String, StringChoice, Color, DateTime, Uuid, and of properties without type |
| `World.v` | base.py, handlers.py, instance.py, containers.py, union.py, link.py, property access of basic.py on a heap of instances |
| `DeserInto.v` | base.py: deserialize into an existing instance |
| `LinkArgs.v` | link.py: the arguments of directional_link and link as Python values |
| `LinkGroup.v` | link.py: dlinks, unlink and relink of a whole link |
| `Meta.v` | base.py: class creation |
| `Keywords.v` | constructors, keywords and setters of all property classes but DynamicProperty |
| `Choices.v` | basic.py: the dictionary behind StringChoice.choices, shared with the caller and with other properties |
| `Rows.v` | math.py: the lists in VECTOR_DIRECTIONS as objects shared with callers |
| `Options.v`, `Files.v`, `Arrays.v` | option setters; File and ImagePNG; Array and vectors |
| `Contents.v` | contents of arrays: equal, to_json, deserialize, with the parts of numpy they use |
| `Vectors.v` | scaling of vectors to `length`: what validation and its checks do to arrays |
| `Names.v`, `NamesFacts.v` | property objects on a heap: names, contained properties, tags, terms |
| `Foreign.v` | instance.py with classes that are not HasProperties classes; options of Instance |
| `Registry.v` | base.py: class registries and the class that deserialize constructs |
| `Url.v` | extras/web.py, with urlparse and geturl of CPython 3.11.10 for ASCII text |
| `Declare.v` | declaration of Integer and Float, of dynamic properties, of the default of a Union, of listeners; custom serializers |
| `Utils.v` | utils.py: filter_props, stop_recursion_with; the context managers of handlers.py as objects |
| `Pointers.v` | Pointer of extras/uid.py |
| `Warnings.v` | warnings: Renamed, ignored defaults, deprecated options |
| `Docs.v` | documentation strings: `sphinx` of properties, the text of a class, `_doc_order` and `_doc_private` |
| `Messages.v` | `info` of all properties and the messages of `error` |
| `Observable.v`, `Singles.v`, `Uid.v`, `Tasks.v` | observable containers; extras/singleton.py; extras/uid.py; extras/task.py |
| `Operators.v` | operators and copying methods of observable containers |
| `Sharing.v` | which containers instances share with their surroundings |
| `Status.v` | report_status of extras/task.py |
| `Changes.v` | the change dictionary as listeners get it: _notify and _set of base.py with arbitrary listeners |
| `Hooks.v` | validate, the constructor and ValidationError of classes that override _error_hook |
| `NumSpec.v`, `BasicSpec.v`, `WorldSpec.v`, `AccessSpec.v`, `GraphSpec.v`, `RoundSpec.v`, `LinkSpec.v`, `MetaSpec.v`, `HookSpec.v`, `DeserSpec.v`, `UtilsSpec.v`, `OptionsSpec.v`, `ObservableSpec.v`, `LibrarySpec.v`, `UrlSpec.v`, `DeclareSpec.v`, `ContentsSpec.v`, `IntoSpec.v`, `TextSpec.v`, `LimitsSpec.v`, `ReadSpec.v`, `OperatorsSpec.v`, `SharingSpec.v`, `KeysSpec.v` | specification vocabulary |
| `WorldFrame.v`, `WorldInv.v`, `WorldSet.v` | frame rule: a preorder respected by every primitive change is respected by every execution; invariants; one assignment |
| `Graph*.v` | validate, serialize and equal on arbitrary object graphs |
| `Round*.v` | JSON round trip and copy |
| `Link*.v`, `Meta*.v`, `Hook*.v`, `Deser*.v`, `*Facts.v`, `*Proofs.v` | further lemmas |
| `*Example.v`, `*ExampleFacts.v` | concrete class tables and states for the examples |
| `Properties*.v` | the property theorems |

## What is proved, and how

| id | file of the theorems | proof |
|---|---|---|
| C01-C08, C11 | PropertiesWorld (C03 also PropertiesAccess; C01 and C02 on graphs in PropertiesGraph) | symbolic execution of one assignment for arbitrary listeners; trace theorems by induction over the listeners; suppression and typing as invariants of every execution of every user program (frame rule) |
| C06 (context objects) | PropertiesUtils | induction over nested uses |
| C09, C10, C12, C13, C19 | PropertiesAccess | computation of construction, reset, renamed and dynamic access, deserialization for arbitrary classes |
| C14-C16, C18, C46 | PropertiesGraph (C15 also PropertiesWorld) | termination by the number of unguarded instances; soundness and completeness by induction over values and graphs, cyclic ones included |
| C17 | PropertiesRound, PropertiesKeys | induction over property types, then over the acyclic graph; validity of copies from the validity of every reachable instance |
| C20 | PropertiesDeser | frame rule with the disabled modes |
| C21, C43 | PropertiesUtils | induction; C43 for arbitrary functions that call themselves |
| C22-C27, C45, C47, C49 | PropertiesBasic | case analysis, arithmetic of doubles and dates |
| C22 (containers and stored values), C14 (accepted values) | PropertiesLimits (with limits of C03, C12, C17, C18, C29) | induction over property types; frame rule |
| C28, C29 | PropertiesAccess | induction over items and alternatives |
| C30-C32 | PropertiesMeta | induction over class statements |
| C33 | PropertiesObservable | invariant of all histories |
| C34, C35 | PropertiesLink (C34 also PropertiesWorld) | induction over networks; termination by the set of guarded links |
| C36-C39 | PropertiesLibrary, PropertiesUid | invariants of all histories; graph induction |
| C40, C41, C44, C50, C51 | PropertiesExtras, PropertiesFileRuns | invariants of setter sequences; case analysis |
| C42 | PropertiesHook | counting hook events |
| C52 | PropertiesUrl | a grammar of URL text, shown to be what the functions compute |
| C53-C57 | PropertiesDeclare | induction over keywords, alternatives and histories; C53 with independence of the order of setters |
| C58, C59 | PropertiesArray, PropertiesCArrays | induction over shapes; sign and range of rounded doubles |
| C60-C62 | PropertiesNames | invariants of histories over a heap of property objects |
| C63 | PropertiesRegistry | induction over class declarations |
| C64-C66 | PropertiesForeign | case analysis; induction over JSON values |
| C48 | PropertiesPointers | case analysis, over any class pointed to |
| C68 | PropertiesMessages | induction over nested properties |
| C69 | PropertiesWarnings | induction over chains of names and over defaults |
| C70 | PropertiesDocs | induction over bases, names and nested properties; insertion sort |
| C71 | PropertiesKeywords | induction over the assignments of a call; finite checks over the classes; simulation between Keywords.v and Declare.v |
| C72 | PropertiesStatus | error bound of the rounded product; symbolic run of the construction of a status |
| C73 | PropertiesLinkNow | symbolic run of the creation; the order of the pairs of a link as an invariant |
| C74 | PropertiesInto | induction over the entries of the input; the frame rule for typing; independence of the validation flag to compare with a new instance |
| C75 | PropertiesLinkArgs | refinement: calls that fit are the operations of World.v; induction over the pairs of a link |
| C76 | PropertiesText | grammar of number texts; induction over the characters both ways; case check over all pairs of characters for upper case |
| C77 | PropertiesChanges | refinement of the dictionary by values handed on; induction over the listeners; comparison of two runs |
| C78 | PropertiesHooks | induction over the class validators: refinement of collecting in place by a relation |
| C79 | PropertiesChoices | invariant over sequences of actions on a heap of dictionaries |
| C80 | PropertiesRows | invariants over sequences of actions on a heap of lists |
| C81 | PropertiesRead | induction on the interpreter: reading operations leave the world as it is |
| C82 | PropertiesOperators | induction over expressions: refinement of builtin containers |
| C83 | PropertiesSharing | invariant of the heap over all sequences of actions |
| C67 | PropertiesVectors | case analysis, over any constructor and scaling |

## What is modelled, module by module

The header of each model file states what it leaves out; this is the summary.

* **basic.py** Modelled: the leaf properties (validate, equal, to_json,
  from_json); access through GettableProperty, Property, DynamicProperty and
  Renamed; File; setters of bounds, lengths, modes and choices; declaration of
  Integer and Float with all keywords; the checks when a dynamic property is
  declared; `accept_kwargs` with custom serializers and deserializers; names, tags
  and terms of property objects (Names.v).  Keywords.v declares the other
  properties, with validation of the default as a given function of the options;
  Declare.v has Integer and Float with their validation.  Documentation strings are in Docs.v only.  Warnings are in Warnings.v only.  `info` and the messages of
  `error` are in Messages.v, apart from World.v, whose errors carry no message.  In
  World.v properties have no custom serializers or deserializers, and a property
  with all it contains has the name of its attribute: C60 says when that is so.
* **base/base.py** Modelled: the metaclass, construction, access,
  notification, reset, validate, serialize, deserialize (with `_instance` in DeserInto.v), equal, copy, and the
  calls of `_error_hook`; several class registries (Registry.v; World.v has one).
  Documentation strings are in Docs.v, on top of the class table of Meta.v.
  Bodies of `_error_hook` are in Hooks.v, listeners that change their change dictionary in Changes.v.
  Not modelled: changing a class after its creation.
* **base/instance.py, containers.py, union.py** Modelled: validate,
  assert_valid, equal, serialize, deserialize; observable containers
  (Observable.v), their operators (Operators.v, not for subclasses of list, set and dict); their sharing (Sharing.v, without Unions, instances and merging of
  equal items of sets); the default of a Union
  (Declare.v) and what may be contained (Names.v).  Instance of
  other classes and the options of Instance (Foreign.v; not in World.v).  The options of Union are in
  Keywords.v.  In World.v contained properties are required, which
  makes no difference as long as the attribute is set [C14_required_of_contained].
* **handlers.py** Modelled: registration on an instance, modes, the context
  managers, the argument checks of `observer`, `validator` and `disable_type`.
* **link.py** Modelled: directional_link and link, with the checks of their
  arguments (LinkArgs.v).  Not modelled: traitlets, the text of the errors.
* **utils.py** Modelled: filter_props, stop_recursion_with.
* **images.py** Modelled: Files.v.  Not modelled: `filename`, png.Image values.
* **math.py** Modelled: options, shapes, dtypes, direction names; `equal`,
  `to_json` and `deserialize` of arrays of bools, ints and floats.  numpy is
  modelled from its documentation, as it is not in the sandbox.  Scaling
  to `length` (Vectors.v) has vectormath as two functions: its constructors, which
  make new arrays, and its assignment to `length`, which works in place.  Not
  modelled: how vectormath computes, vectors with nan or infinities in JSON, `equal` of complex arrays
  (their JSON is in CArrays.v; numpy turns complex numbers in a list with a string into text with `str`, and reads text with `complex`).
* **extras/** Modelled: singleton.py, uid.py, task.py (report_status without the output stream),
  web.py (`info` in Messages.v).

Nor are threads, pickling, and subclasses overriding library methods.  Strings
are ASCII as far as case mapping and whitespace go.

## Findings

Each is a theorem named `..._refuted` (in brackets), or a remark.

*Validation and types*
* A validator may replace the value by one of another type, which is stored [C07_validator_can_break_typing].
* String validation is not idempotent: case folding comes after stripping, and the regex is checked before both [C22_string].  Nor is that of Unions, so an instance can be invalid right after an accepted assignment [C22_union]; and they let OverflowError through [C29_overflow].
* Integer raises OverflowError for infinity and rejects a float just below an int though within the tolerance [C23_integer]; Float raises OverflowError for huge ints, accepts nan whatever the bounds, and accepts 2**53+1 as 2**53 [C23_float].
* Color rejects 'firebrick' (the table says 'irebrick') and accepts '+F+F+F' and '##FF0000' [C25_color].
* DateTime does not read back years below 1000 where strftime does not pad [C26_early_years].
* Boolean.from_json returns integers unconverted [C49_from_json_int].
* A bound of nan is accepted and excludes nothing; a mode assigned after valid_modes need not be one of them [C41_nan_bound, C41_mode_after_valid]. A lone bound need not be a number, and min or max cannot be set back to None while the other is set: None is compared with it [C41_any_bound].
* StringChoice: case_sensitive after choices, choices after descriptions leave colliding choices, and choices without description [C51_case_after_choices, C51_choices_after_descriptions]; the latter makes every invalid value raise KeyError instead of ValidationError [C68_error_refuted].  The setter of choices keeps the caller's dictionary and rewrites it, even if it refuses the choices; what the caller changes in it later is not checked [C79_shared, C79_refused].
* URL.info has no return statement (web.py:63-69), so a dynamic property made from a URL fails when its info is used, that is for every invalid value [C68_error_refuted].
* File: a vetoed deletion has already closed the file; with mode 'wb+' every name is rejected after the file was opened and emptied; ImagePNG accepts a closed stream that was validated before [C50_vetoed_delete, C50_wb_plus, C50_png_closed]; a file opened for a name stays open when another file is assigned [C50_replaced], and ImagePNG closes the caller's file (C50_png_takes); an image that has been read is serialized from its position [C44_read_image]; an image file standing behind other bytes is accepted but does not come back from JSON [C44_cycle].
* Array equality is not symmetric, and its relative tolerance of 1e-5 makes 99999 equal to 100000 [C58_symmetric, C58_coarse].  In JSON arrays with an empty leading dimension lose their shape, arrays without dimensions raise TypeError, and dtype=(int, float) truncates [C59_empty, C59_scalar, C59_truncated].  `to_json` of a complex array leaves complex numbers in the lists, which json.dumps refuses [C59_complex].
* Array: a tuple of direction names raises TypeError and the caller's list is changed even when rejected [C40_names]; Vector3Array puts lists of VECTOR_DIRECTIONS into the caller's list, who can change through them what the names mean for all vectors [C80_shared].

*Declarations*
* Integer(max=3, min=None) raises TypeError, Integer(min=None, max=3) does not [C53_none_order].
* A keyword that names a method replaces it: Integer(default='five', validate=f) is accepted [C53_method]; options assigned later leave a default they exclude [C53_later].
* `file_modes=` replaces the modes that later keywords are checked against, so `File('', mode='r', file_modes=('r', 'q'), valid_modes=('r', 'q'))` is accepted and the order of its keywords matters [C71_order_refuted].
* `Uuid(default=x)` raises AttributeError, since its default has no setter [C71_uuid_default]; so do `dtype` of vectors and `shape` of Vector2 and Vector3 [C71_bad_keyword].  `ImagePNG(mode=None)` and `File(valid_modes=...)` without mode raise TypeError [C71_bad_keyword_ex].  A Union without alternatives takes anything as its name [C71_union_name_refuted].
* `TaskStatus.progress` is optional, but reporting a status without it raises TypeError; nan passes its bounds and makes report_status raise ValueError [C72_unset_refuted, C72_nan_refuted].
* `link` that raises for one of its items leaves the links between the earlier items working, with no object to unlink them [C73_half_made_refuted]; `update_now` from an unset property assigns None to the target [C73_unset_source_refuted].
* The check of the transform of a directional_link counts the parameters in the code of the function: bound methods of one argument, functions whose further parameters have defaults and `lambda *a: ...` are refused, and bound methods without argument or functions that need a keyword are accepted [C75_transform_refuted].
* A dynamic property accepts functions that cannot be called with its arguments, and rejects functions that can [C54_keyword_only, C54_method, C54_defaults].
* The default of a Union's alternative may be read by an earlier alternative; default=undefined does not remove it; a callable default may be called several times [C55_*].
* observer(instance, 'x') registers None as listener, which fails when x is set [C56_no_function]; a name given twice calls the listener twice (C56_registered).
* A TypeError inside a custom serializer is hidden by a second call without keywords [C57_second_call].
* A property object used for two attributes serves the last one only, also across classes and even if the second class cannot be declared; a contained property assigned later has no name [C60_shared, C60_second_class, C60_later].

*Instances*
* A default for the old name of a renamed property is stored under the old name, where reading does not look [C12_default_for_old_name].  Renamed properties that lead to each other recurse without end [C12_renamed_loop].
* A listener registered during a notification is called in it [C03_listeners_at_start].
* deserialize stores a value for a dynamic property [C13_deserialize_stores].
* Assigning nan or infinity to a Float is accepted and makes the instance invalid [C14_special_floats].
* A Union can hide an invalid nested instance from validate [C14_union_hides_invalid_instance].
* deserialize calls listeners, by dynamic Instance properties and by strict Unions [C20_dynamic_instance, C20_strict_union].
* serialize calls listeners, by a Union with a HasProperties class: it tries the alternatives again, so a stored dictionary that the class refused makes an instance of it every time [C81_union].
* deserialize with `_instance`, as HasUID uses it: entries stored before an error stay, properties that cannot be assigned are changed, and a value that a subclass's declaration refuses is stored [C74_atomic, C74_unassignable, C74_subclass_type].
* A deleted property with a default comes back after a round trip; Union(String, DateTime) and Union(Integer, String) change the type; copies with nan or infinite floats are unequal; sharing is lost; dictionaries with colours, containers or instances as keys cannot be serialized [C17_*].
* equal is not symmetric on cyclic graphs, compares sets of floats greedily, and is not transitive for floats [C18_*].
* The error hook is called twice for a rejected number and for a list with a rejected item, is called although a Union accepts the value, and is not called for an invalid computed default [C42_*].
* A context object used inside its own block leaves all modes disabled [C06_reentered].
* stop_recursion_with a callable backup that recurses does not stop [C43_callable_backup].

*Classes*
* Properties are collected in another order than the MRO, hidden ones reappear, mixins are ignored [C30_*]; class defaults of diamonds [C31_diamond]; only ValueErrors of default checks become AttributeErrors at class creation, a default of inf for an Integer raises OverflowError [C31_error]; inherited names that point nowhere are not rejected [C32_inherited].
* A class declared later with the same name replaces a class in the registry, so its data is restored as an instance of the other class; HasUID classes are not found by HasProperties.deserialize, nor by Instance(HasProperties) [C63_*].

*Links, containers, extras*
* Instance of a class that is not a HasProperties class: a set value can be serialized but never deserialized without a custom deserializer, dictionary keys 1 and "1" are merged [C65_*]; the value need not be an instance, Instance('', int) takes 3.7 for 3 and {} for 0 [C64_*].
* Cyclic links whose transforms disagree end out of sync; deleting a linked source raises after the deletion; a change_only chain stops at an item that already holds the value [C34_*].
* In-place operators end the observation of a container, on a property and on a variable; a validator that mutates the new value puts unvalidated items into the property [C33_*].
* Operators of observable containers turn NotImplemented into TypeError: `x.s | d.keys()` and `x.l + numpy.array(...)` fail although the class is to behave like the builtin one [C82_same_operators].
* A container that is the value of a Property is stored itself: instances share it as default, and with the JSON they give, so that changing one changes the others [C83_property].
* HasUID: uniqueness is unchecked with listeners disabled, a failed construction keeps its uid, a second deletion of a uid fails, a uid given up still loads [C36_*]; a graph with a shared reference cannot be deserialized unless it is one back to an instance being built [C37_shared_reference_refuted, C37_returns_once, C37_returns_exact, C37_returns_exact_ex]; an instance that exists cannot be deserialized, so `properties.copy` of a HasUID instance always raises ValueError [C37_no_copy].
* Pointer with load=True: a uid assigned before its instance exists makes its owner invalid as soon as the instance exists; a uid property that does not keep text (Uuid) makes the owner invalid at once; a Pointer to an instance in a flat dictionary is read as the uid, and the instance is not restored by it [C48_*].
* Singleton: reentrant construction registers two instances, a failed deserialization leaves one registered, deserializing changes the caller's dictionary [C38_*].
* Vectors with `length` and coerce=False: validation scales the caller's array in place, and a check of a stored vector of the wrong length rewrites it and passes; `length` accepts nan and infinity [C67_*].
* Documentation: a list of tuples is described as a tuple of lists [C70_nested_refuted]; the `_doc_order` of the first base, if it does not fit, hides that of the next [C70_order, C70_orders]; a `_doc_order` of names and numbers raises TypeError, not AttributeError [C70_order_errors].
* URL: strip and regex come before the removal of parts [C52_strip, C52_regex]; path parameters stay in segments before the last and for schemes like ws [C52_path_parameters]; unbalanced brackets raise a plain ValueError [C52_brackets].
* The change dictionary is shared by the listeners and phases of an assignment: a listener can be told another name, another former value and a value never stored [C77_misled].
* An `_error_hook` that empties the list it is given hides the errors from an enclosing validation [C78_emptied].

## How to read seeded/LOG.jsonl

* Rows whose id does not start with `auto_` are edits written by hand.  Their
  failed theorems come from rebuilding the files that depend on the edit.
* Rows whose id starts with `auto_` are systematic edits.  The rebuild gives
  `lemmas_failed`.  `theorems_failed` is derived from it: the theorems whose
  proofs depend, by name, on a failed lemma.  `theorems_tightened` is derived
  too: it is filled when the edit survived at first and failed later.  Neither
  was observed theorem by theorem.
* The notes of the surviving `auto_` rows date from their last rebuild.
  Theorems added later were not rerun against them all.  In particular 13 rows
  on text, numbers and truth values (`pybase`, `pyfloat`, `pyval`) were not
  rerun against `C76_int_text` and `C49_cast_false`.
* `rd10` and `lim01` broke a supporting file before any theorem was reached, so
  they give no verdict on a theorem.

## Precision of the citations

Line citations of types and small helpers were added in bulk (commit d535d6d).
They were checked by sample, not one by one, and many give a range wider than
the lines modelled.  About 108 helper definitions, mainly in `PyBase`,
`PyFloat`, `WorldFrame`, `WorldInv` and `WorldSet`, have no citation.
